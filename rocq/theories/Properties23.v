(** Generated by tools/gen_props.py from Main23.v: statements of the properties.
    Every theorem is closed by [exact]; its assumptions are printed beneath it. *)
From Coq Require Import Arith NArith ZArith List Bool Lia.
From Verif Require Import Base Spec SpecGf2 ModelNtl SpecNtl Ntl2 NtlEx ModelSM4 SpecSM4 SM4 WBSM4 ModelSM4N WBSM4N ModelAES SpecAES AES WBAES Main8 ModelAESN WBAESN Main23.
Import ListNotations.

(** C102: generating tables is defined for every key, every content of the global arrays before and
    every sequence of random bits, and encryption with the tables is SM4 *)
Theorem C102_wbsm4_ntl : forall fuel nt key g c s, ntl_ok nt -> bytes 16 key ->
  nglob_dims g -> dims3 32 4 256 (kS g) -> nctx_dims c ->
  exists o, n_gen_tables fuel nt key g c s = Ok o /\
    forall g' c' s', o = Some (g', c', s') -> nglob_dims g' /\ dims3 32 4 256 (kS g') /\ nctx_dims c' /\
      forall IN OUT, bytes 16 IN -> length OUT = 16 -> n_wb_enc nt IN OUT c' = Ok (SM4_encrypt key IN).
Proof. exact C102_wbsm4_ntl_main. Qed.
Print Assumptions C102_wbsm4_ntl.

(** ... and it ends, with the same tables for every sufficient number of tries, if the random bits
    contain an invertible matrix again and again *)
Theorem C102_ends : forall nt key g c s, ntl_ok nt -> bytes 16 key ->
  nglob_dims g -> dims3 32 4 256 (kS g) -> nctx_dims c -> always (trand nt) 8 -> always (trand nt) 32 ->
  exists f0 g' c' s', forall f, f0 <= f -> n_gen_tables f nt key g c s = Ok (Some (g', c', s')).
Proof. exact C102_ends_main. Qed.
Print Assumptions C102_ends.

(** a determinant and an inverse, random bits, and the arrays before the first call *)
Example C102_ex : ntl_ok ex_nt /\ always (trand ex_nt) 8 /\ always (trand ex_nt) 32 /\
  bytes 16 (map N.of_nat (seq 0 16)) /\ nglob_dims ng0 /\ dims3 32 4 256 (kS ng0) /\ nctx_dims nc0.
Proof. exact C102_ex_main. Qed.

(** C103: generating tables is defined for every content of the 176-byte buffer, of the global tables
    before and every sequence of random bits; the first ten round keys in the buffer are turned; and
    encryption with the tables is the cipher with the eleven round keys that were in the buffer *)
Theorem C103_round_keys : forall fuel nt rk t s, ntl_ok nt -> (forall i, i < 11 -> bytes 16 (rk i)) -> tab_typed t ->
  exists o, ax_computeTables fuel nt (concat (map rk (seq 0 11))) t s = Ok o /\
    forall ek' t' s', o = Some (ek', t', s') -> tab_typed t' /\
      ek' = concat (map (fun i => if Nat.ltb i 10 then ShiftRows (rk i) else rk i) (seq 0 11)) /\
      forall x out, bytes 16 x -> 16 <= length out ->
        aes_128_table_encrypt t' x out = Ok (aes_cipher rk x, aes_cipher rk x ++ skipn 16 out).
Proof. exact C103_round_keys_main. Qed.
Print Assumptions C103_round_keys.

(** ... and so expandKey, computeTables, aes_128_table_encrypt is AES-128 *)
Theorem C103_wbaes_ntl : forall fuel nt key ek t s, ntl_ok nt -> bytes 16 key -> length ek = 176 -> tab_typed t ->
  exists ek1 o, expandKey key ek = Ok ek1 /\ ax_computeTables fuel nt ek1 t s = Ok o /\
    forall ek' t' s', o = Some (ek', t', s') -> forall x out, bytes 16 x -> 16 <= length out ->
      aes_128_table_encrypt t' x out = Ok (AES_encrypt key x, AES_encrypt key x ++ skipn 16 out).
Proof. exact C103_wbaes_ntl_main. Qed.
Print Assumptions C103_wbaes_ntl.

(** ... which ends if the random bits contain an invertible matrix again and again *)
Theorem C103_ends : forall nt ek t s, ntl_ok nt -> bytes 176 ek -> tab_typed t ->
  always (trand nt) 8 -> always (trand nt) 32 ->
  exists f0 ek' t' s', forall f, f0 <= f -> ax_computeTables f nt ek t s = Ok (Some (ek', t', s')).
Proof. exact C103_ends_main. Qed.
Print Assumptions C103_ends.

(** the second call on the same buffer generates tables for the turned round keys; for the zero key
    they encrypt the zero block to something else than AES does *)
Theorem C103_second_call_refuted : exists key x, bytes 16 key /\ bytes 16 x /\
  forall fuel nt t s ek1 ek2 t1 s1 ek3 t2 s2, ntl_ok nt -> tab_typed t -> expandKey key (repeat 0%N 176) = Ok ek1 ->
    ax_computeTables fuel nt ek1 t s = Ok (Some (ek2, t1, s1)) ->
    ax_computeTables fuel nt ek2 t1 s1 = Ok (Some (ek3, t2, s2)) ->
    (exists o, aes_128_table_encrypt t1 x (repeat 0%N 16) = Ok (AES_encrypt key x, o)) /\
    ~ (exists o, aes_128_table_encrypt t2 x (repeat 0%N 16) = Ok (AES_encrypt key x, o)).
Proof. exact C103_second_call_refuted_main. Qed.
Print Assumptions C103_second_call_refuted.

(** a determinant and an inverse, random bits, a key and the tables before the first call *)
Example C103_ex : ntl_ok ex_nt /\ always (trand ex_nt) 8 /\ always (trand ex_nt) 32 /\ bytes 16 c1_key /\ tab_typed tab0.
Proof. exact C103_ex_main. Qed.

(** C104: the T-boxes contain the key in the clear: there is a function that reads the AES key off the
    T-boxes of the first round, whatever random bijections were drawn *)
Theorem C104_key_in_tables : exists extract : list (list N) -> list N,
  forall fuel nt key ek ek1 ek' t t' s s', ntl_ok nt -> bytes 16 key -> length ek = 176 -> tab_typed t ->
    expandKey key ek = Ok ek1 -> ax_computeTables fuel nt ek1 t s = Ok (Some (ek', t', s')) ->
    extract (nth 0 (tTBoxes t') []) = key.
Proof. exact C104_key_in_tables_main. Qed.
Print Assumptions C104_key_in_tables.

(** the hypotheses are met for every key: with the bits above the call returns tables *)
Example C104_ex : forall key t, bytes 16 key -> tab_typed t ->
  exists f ek1 ek' t' s', expandKey key (repeat 0%N 176) = Ok ek1 /\
    ax_computeTables f ex_nt ek1 t 0 = Ok (Some (ek', t', s')).
Proof. exact C104_ex_main. Qed.
