(** Generated by tools/gen_props.py from Main14.v: statements of the properties.
    Every theorem is closed by [exact]; its assumptions are printed beneath it. *)
From Coq Require Import Arith NArith ZArith QArith List Bool Lia.
From Verif Require Import Base Spec LinAlg ModelRank ModelBM SpecBM BM LCCount Main14.
Import ListNotations.
Local Open Scope nat_scope.

(** C67: berelekamp_massey returns the length of the shortest linear feedback shift register that
    produces the bits, and the first coefficients (all but the last) of such a register. *)
Theorem C67_berlekamp_massey : forall bits, bits <> [] -> (forall x, In x bits -> x = 0%N \/ x = 1%N) ->
  exists L p, berelekamp_massey bits = Ok (L, p) /\ lincomp (length bits) (seqbits bits) L /\
    exists f, lfsr (length bits) (seqbits bits) L f /\ length p = L /\ forall i, S i < L -> seqbits p (S i) = f i.
Proof. exact C67_berlekamp_massey_main. Qed.
Print Assumptions C67_berlekamp_massey.

(** C67: the list of coefficients it returns is one short: read as the polynomial of the register it
    does not produce the bits. *)
Theorem C67_polynomial_refuted : exists bits L p, (forall x, In x bits -> x = 0%N \/ x = 1%N) /\
  berelekamp_massey bits = Ok (L, p) /\ ~ lfsr (length bits) (seqbits bits) L (fun i => seqbits p (S i)).
Proof. exact C67_polynomial_refuted_main. Qed.
Print Assumptions C67_polynomial_refuted.

(** C67: the empty list raises an exception. *)
Theorem C67_empty : berelekamp_massey [] = UB.
Proof. exact C67_empty_main. Qed.
Print Assumptions C67_empty.

(** C67: the test collects the linear complexities of the blocks of M bits. *)
Theorem C67_blocks : forall M bits, 0 < M -> (forall x, In x bits -> x = 0%N \/ x = 1%N) ->
  exists LC, complexities M bits = Ok LC /\ length LC = length bits / M /\
    forall i, i < length bits / M -> lincomp M (fun k => seqbits bits (i * M + k)) (nth i LC 0).
Proof. exact C67_blocks_main. Qed.
Print Assumptions C67_blocks.

(** C67: the example in the source file: 13 bits of linear complexity 4. *)
Example C67_ex : berelekamp_massey [1; 1; 0; 1; 0; 1; 1; 1; 1; 0; 0; 0; 1]%N = Ok (4, [1; 0; 0; 1]%N) /\
  complexities 4 [1; 1; 0; 1; 0; 0; 0; 0; 0; 0; 0; 1; 1]%N = Ok [2; 0; 4].
Proof. exact C67_ex_main. Qed.

(** C68: the number of sequences of n bits with linear complexity L is 1 for L = 0 and
    2^min(2n-2L, 2L-1) for L = 1..n; there are none with L > n. *)
Theorem C68_count : forall n L, exists ws, NoDup ws /\
  (forall w, In w ws <-> length w = n /\ (forall x, In x w -> x = 0%N \/ x = 1%N) /\ lincomp n (seqbits w) L) /\
  N.of_nat (length ws) = if L =? 0 then 1%N else if n <? L then 0%N else (2 ^ N.of_nat (Nat.min (2 * n - 2 * L) (2 * L - 1)))%N.
Proof. exact C68_count_main. Qed.
Print Assumptions C68_count.

(** C68: the classes of the test for blocks of 512 bits: complexity at most 253, 254, 255, 256, 257, 258,
    at least 259. *)
Theorem C68_class : forall L, L <= 512 -> lc_class (lc_T 512 L) =
  if L <=? 253 then 0 else if 259 <=? L then 6 else L - 253.
Proof. exact C68_class_main. Qed.
Print Assumptions C68_class.

(** C68: the reference probabilities of the test are the exact probabilities of the classes for a
    uniformly distributed block of 512 bits, within 10^-6. *)
Theorem C68_pi : forall k, k < 7 -> exists ws, NoDup ws /\
  (forall w, In w ws <-> length w = 512 /\ (forall x, In x w -> x = 0%N \/ x = 1%N) /\
     exists L, lincomp 512 (seqbits w) L /\ lc_class (lc_T 512 L) = k) /\
  (let f := inject_Z (Z.of_nat (length ws)) / inject_Z (2 ^ 512) in
   f - nth k lc_pi 0 <= 1 # 1000000 /\ nth k lc_pi 0 - f <= 1 # 1000000)%Q.
Proof. exact C68_pi_main. Qed.
Print Assumptions C68_pi.

(** C68: the numbers for n = 5, by the formula and by running the algorithm on all 32 sequences. *)
Example C68_ex :
  map (fun L => if L =? 0 then 1%N else if 5 <? L then 0%N else (2 ^ N.of_nat (Nat.min (2 * 5 - 2 * L) (2 * L - 1)))%N) (seq 0 7)
    = [1; 2; 8; 16; 4; 1; 0]%N /\
  map (fun L => N.of_nat (length (filter (fun w => Nat.eqb (lc w) L) (words 5)))) (seq 0 7) = [1; 2; 8; 16; 4; 1; 0]%N.
Proof. exact C68_ex_main. Qed.
