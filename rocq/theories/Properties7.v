(** Generated by tools/gen_props.py from Main7.v: statements of the properties.
    Every theorem is closed by [exact]; its assumptions are printed beneath it. *)
From Coq Require Import Arith NArith ZArith List Bool Lia.
From Verif Require Import Base Tables Model Spec LinAlg Mem Cons Check ModelSM4 SpecSM4 SM4 WBSM4 Main7.
Import ListNotations.

(** C41: whatever the global arrays and the context contain before (the examples call the
    generator many times on the same ones), table generation is defined, and encryption with
    the tables is SM4 with the key; u is the size of unsigned long, s the state of the random
    generator and the clock, OUT the previous content of the output buffer. *)
Theorem C41_wbsm4 : forall u key g c s, bytes 16 key -> glob_typed g -> dims3 32 4 256 (gS g) -> ctx_typed c ->
  exists g' c' s', sm4_wb_gen_tables LE u key g c s = Ok (g', c', s') /\
    glob_typed g' /\ dims3 32 4 256 (gS g') /\ ctx_typed c' /\
    forall IN OUT, bytes 16 IN -> length OUT = 16 -> sm4_wb_enc LE IN OUT c' = Ok (SM4_encrypt key IN).
Proof. exact C41_wbsm4_main. Qed.
Print Assumptions C41_wbsm4.

Example C41_ex : bytes 16 (repeat 0%N 16) /\ glob_typed glob0 /\ dims3 32 4 256 (gS glob0) /\ ctx_typed ctx0.
Proof. exact C41_ex_main. Qed.

(** C47: sm4_setkey_enc and sm4_one_round compute SM4, for both sizes of unsigned long; nothing
    but the 16 bytes at the output position changes. *)
Theorem C47_sm4_block : forall u SK key, bytes 16 key -> length SK = 32 ->
  exists sk, sm4_setkey_enc u SK key = Ok sk /\
    forall pre b post opre ob opost, bytes 16 b -> length ob = 16 ->
      Forall (fun x => (x < 256)%N) (pre ++ post) ->
      sm4_one_round u sk (pre ++ b ++ post) (length pre) (opre ++ ob ++ opost) (length opre)
      = Ok (opre ++ SM4_encrypt key b ++ opost).
Proof. exact C47_sm4_block_main. Qed.
Print Assumptions C47_sm4_block.

(** the example of the standard: the specification is SM4 *)
Example C47_ex : bytes 16 ex_key /\ SM4_encrypt ex_key ex_key = ex_ct.
Proof. exact C47_ex_main. Qed.

(** C48: decryption inverts encryption and encryption inverts decryption *)
Theorem C48_sm4_inverse : forall u SK SK' key, bytes 16 key -> length SK = 32 -> length SK' = 32 ->
  exists sk dk, sm4_setkey_enc u SK key = Ok sk /\ sm4_setkey_dec u SK' key = Ok dk /\
    (forall x y z, bytes 16 x -> length y = 16 -> length z = 16 ->
       exists c, sm4_one_round u sk x 0 y 0 = Ok c /\ sm4_one_round u dk c 0 z 0 = Ok x) /\
    (forall x y z, bytes 16 x -> length y = 16 -> length z = 16 ->
       exists c, sm4_one_round u dk x 0 y 0 = Ok c /\ sm4_one_round u sk c 0 z 0 = Ok x).
Proof. exact C48_sm4_inverse_main. Qed.
Print Assumptions C48_sm4_inverse.

Example C48_ex : exists dk, sm4_setkey_dec UL32 (repeat 0%N 32) ex_key = Ok dk /\
  sm4_one_round UL32 dk ex_ct 0 (repeat 0%N 16) 0 = Ok ex_key.
Proof. exact C48_ex_main. Qed.

(** C49: the modes ECB and CBC on any number of blocks.  [post] and [rest] are the bytes of the
    two buffers after the blocks; the second component of CBC's result is the buffer, the first
    the new content of iv. *)
Theorem C49_ecb : forall u SK key, bytes 16 key -> length SK = 32 ->
  exists sk, sm4_setkey_enc u SK key = Ok sk /\
    forall bs post out rest, Forall (bytes 16) bs -> Forall (fun x => (x < 256)%N) post -> length out = 16 * length bs ->
      sm4_crypt_ecb u sk (16 * Z.of_nat (length bs)) (concat bs ++ post) (out ++ rest)
      = Ok (concat (map (SM4_encrypt key) bs) ++ rest).
Proof. exact C49_ecb_main. Qed.
Print Assumptions C49_ecb.

Theorem C49_cbc_enc : forall u SK key, bytes 16 key -> length SK = 32 ->
  exists sk, sm4_setkey_enc u SK key = Ok sk /\
    forall iv bs post out rest, bytes 16 iv -> Forall (bytes 16) bs -> Forall (fun x => (x < 256)%N) (post ++ out ++ rest) ->
      length out = 16 * length bs ->
      sm4_crypt_cbc u sk true (16 * Z.of_nat (length bs)) iv (concat bs ++ post) (out ++ rest)
      = Ok (last (CBC_encrypt (SM4_encrypt key) iv bs) iv, concat (CBC_encrypt (SM4_encrypt key) iv bs) ++ rest).
Proof. exact C49_cbc_enc_main. Qed.
Print Assumptions C49_cbc_enc.

Theorem C49_cbc_dec : forall u SK key, bytes 16 key -> length SK = 32 ->
  exists dk, sm4_setkey_dec u SK key = Ok dk /\
    forall iv bs post out rest, bytes 16 iv -> Forall (bytes 16) bs -> Forall (fun x => (x < 256)%N) post ->
      length out = 16 * length bs ->
      sm4_crypt_cbc u dk false (16 * Z.of_nat (length bs)) iv (concat bs ++ post) (out ++ rest)
      = Ok (last bs iv, concat (CBC_decrypt (SM4_decrypt key) iv bs) ++ rest).
Proof. exact C49_cbc_dec_main. Qed.
Print Assumptions C49_cbc_dec.

(** encrypting a message in CBC mode and decrypting the result with the same iv gives the message *)
Theorem C49_cbc_roundtrip : forall u SK SK' key, bytes 16 key -> length SK = 32 -> length SK' = 32 ->
  exists sk dk, sm4_setkey_enc u SK key = Ok sk /\ sm4_setkey_dec u SK' key = Ok dk /\
    forall iv bs out out', bytes 16 iv -> Forall (bytes 16) bs ->
      bytes (16 * length bs) out -> length out' = 16 * length bs ->
      exists iv1 ct iv2, sm4_crypt_cbc u sk true (16 * Z.of_nat (length bs)) iv (concat bs) out = Ok (iv1, ct) /\
        sm4_crypt_cbc u dk false (16 * Z.of_nat (length bs)) iv ct out' = Ok (iv2, concat bs).
Proof. exact C49_cbc_roundtrip_main. Qed.
Print Assumptions C49_cbc_roundtrip.

(** a message may be encrypted in pieces: iv after the first call continues the chain *)
Theorem C49_cbc_pieces : forall u SK key, bytes 16 key -> length SK = 32 ->
  exists sk, sm4_setkey_enc u SK key = Ok sk /\
    forall iv bs bs' out out', bytes 16 iv -> Forall (bytes 16) (bs ++ bs') ->
      bytes (16 * length bs) out -> bytes (16 * length bs') out' ->
      exists iv1 c1 iv2 c2,
        sm4_crypt_cbc u sk true (16 * Z.of_nat (length bs)) iv (concat bs) out = Ok (iv1, c1) /\
        sm4_crypt_cbc u sk true (16 * Z.of_nat (length bs')) iv1 (concat bs') out' = Ok (iv2, c2) /\
        sm4_crypt_cbc u sk true (16 * Z.of_nat (length (bs ++ bs'))) iv (concat (bs ++ bs')) (out ++ out') = Ok (iv2, c1 ++ c2).
Proof. exact C49_cbc_pieces_main. Qed.
Print Assumptions C49_cbc_pieces.

Example C49_ex : exists sk, sm4_setkey_enc UL64 (repeat 0%N 32) ex_key = Ok sk /\
  sm4_crypt_cbc UL64 sk true 32 (repeat 0%N 16) (ex_key ++ ex_ct) (repeat 7%N 32) = Ok (
    [38; 119; 244; 107; 9; 193; 34; 204; 151; 85; 51; 16; 91; 212; 162; 42]%N, ex_ct ++
    [38; 119; 244; 107; 9; 193; 34; 204; 151; 85; 51; 16; 91; 212; 162; 42]%N).
Proof. exact C49_ex_main. Qed.

(** C50: input and output may be the same buffer *)
Theorem C50_in_place : forall u SK SK' key, bytes 16 key -> length SK = 32 -> length SK' = 32 ->
  exists sk dk, sm4_setkey_enc u SK key = Ok sk /\ sm4_setkey_dec u SK' key = Ok dk /\
    forall iv bs post, bytes 16 iv -> Forall (bytes 16) bs -> Forall (fun x => (x < 256)%N) post ->
      sm4_crypt_ecb_ip u sk (16 * Z.of_nat (length bs)) (concat bs ++ post)
        = Ok (concat (map (SM4_encrypt key) bs) ++ post) /\
      sm4_crypt_ecb_ip u dk (16 * Z.of_nat (length bs)) (concat bs ++ post)
        = Ok (concat (map (SM4_decrypt key) bs) ++ post) /\
      sm4_crypt_cbc_ip u sk true (16 * Z.of_nat (length bs)) iv (concat bs ++ post)
        = Ok (last (CBC_encrypt (SM4_encrypt key) iv bs) iv, concat (CBC_encrypt (SM4_encrypt key) iv bs) ++ post) /\
      sm4_crypt_cbc_ip u dk false (16 * Z.of_nat (length bs)) iv (concat bs ++ post)
        = Ok (last bs iv, concat (CBC_decrypt (SM4_decrypt key) iv bs) ++ post).
Proof. exact C50_in_place_main. Qed.
Print Assumptions C50_in_place.

Example C50_ex : exists sk, sm4_setkey_enc UL32 (repeat 0%N 32) ex_key = Ok sk /\
  sm4_crypt_ecb_ip UL32 sk 16 (ex_key ++ [1; 2]%N) = Ok (ex_ct ++ [1; 2]%N).
Proof. exact C50_ex_main. Qed.

(** C51: a length that is not a multiple of 16 makes the functions access memory beyond the end
    of a buffer of that length, whatever the keys and contents *)
Theorem C51_length : forall u sk L input output iv, (0 < L)%Z -> (L mod 16 <> 0)%Z ->
  (Z.of_nat (length input) = L \/ Z.of_nat (length output) = L) ->
  sm4_crypt_ecb u sk L input output = UB /\
  sm4_crypt_cbc u sk true L iv input output = UB /\
  sm4_crypt_cbc u sk false L iv input output = UB.
Proof. exact C51_length_main. Qed.
Print Assumptions C51_length.

(** with room for whole blocks the same lengths are defined *)
Example C51_ex : exists sk o, sm4_setkey_enc UL32 (repeat 0%N 32) ex_key = Ok sk /\
  sm4_crypt_ecb UL32 sk 5 ex_key (repeat 0%N 16) = Ok o /\
  sm4_crypt_ecb UL32 sk 5 (firstn 5 ex_key) (repeat 0%N 16) = UB.
Proof. exact C51_ex_main. Qed.
