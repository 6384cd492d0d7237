(** Generated by tools/gen_props.py from Main12.v: statements of the properties.
    Every theorem is closed by [exact]; its assumptions are printed beneath it. *)
From Coq Require Import Arith NArith List Bool Lia.
From Verif Require Import Base Tables Model Spec LinAlg Mem Cons Mul Rand GenPair Main1 Entropy Main12.
Import ListNotations.

(** C64: over all processes, seeds, clocks and generator states randM has at most 2^32 different
    results. *)
Theorem C64_randM_count : forall e w (L : list mat), NoDup L ->
  (forall a, In a L -> exists m s s', typedM w m /\ (w_seed s < 2 ^ 32)%N /\ randM e w m s = Ok (a, s')) ->
  (N.of_nat (length L) <= 2 ^ 32)%N.
Proof. exact C64_randM_count_main. Qed.
Print Assumptions C64_randM_count.

(** C64: genMatpair has at most 2^32 different results. *)
Theorem C64_genMatpair_count : forall e w (L : list (mat * mat)), NoDup L ->
  (forall p, In p L -> exists m v s s', shapeM w m /\ shapeM w v /\ genMatpair e w m v s = Ok (p, s')) ->
  (N.of_nat (length L) <= 2 ^ 32)%N.
Proof. exact C64_genMatpair_count_main. Qed.
Print Assumptions C64_genMatpair_count.

(** C64: genaffinepair has at most 2^64 different results. *)
Theorem C64_genaffinepair_count : forall e w (L : list (aff * aff)), NoDup L ->
  (forall p, In p L -> exists f g s s', shapeM w (amat f) /\ typedV w (avec f) /\ shapeA w g /\
     genaffinepair e w f g s = Ok (p, s')) ->
  (N.of_nat (length L) <= 2 ^ 64)%N.
Proof. exact C64_genaffinepair_count_main. Qed.
Print Assumptions C64_genaffinepair_count.

(** C64: hence, from 8 bits on, there are invertible matrices that genMatpair never returns, neither
    as the matrix nor as the inverse, and matrices that randM never returns. *)
Theorem C64_missing : forall e w, w <> W4 ->
  (exists a, wfM w a /\ invertible (dim w) (mbit w a) /\
     forall m v s b s', shapeM w m -> shapeM w v -> genMatpair e w m v s <> Ok ((a, b), s')) /\
  (exists a, wfM w a /\ invertible (dim w) (mbit w a) /\
     forall m v s b s', shapeM w m -> shapeM w v -> genMatpair e w m v s <> Ok ((b, a), s')) /\
  (exists a, wfM w a /\ invertible (dim w) (mbit w a) /\
     forall m s s', typedM w m -> (w_seed s < 2 ^ 32)%N -> randM e w m s <> Ok (a, s')).
Proof. exact C64_missing_main. Qed.
Print Assumptions C64_missing.

(** C64: the hypotheses are met by lists with different matrices: two seeds, two results. *)
Example C64_ex : exists a b, a <> b /\ NoDup [a; b] /\
  forall p, In p [a; b] -> exists m v s s', shapeM W8 m /\ shapeM W8 v /\ genMatpair LE W8 m v s = Ok (p, s').
Proof. exact C64_ex_main. Qed.
