(** Linear feedback shift registers. *)
From Coq Require Import Arith NArith List Bool.
From Verif Require Import Spec.
Import ListNotations.

(** A register of length L with feedback coefficients f (f i: the coefficient of the bit i + 1
    places back) produces the first n bits of s *)
Definition lfsr (n : nat) (s : nat -> bool) (L : nat) (f : nat -> bool) : Prop :=
  forall k, L <= k -> k < n -> s k = xsum L (fun i => f i && s (k - 1 - i)).
(** L is the length of the shortest register for the first n bits of s *)
Definition lincomp (n : nat) (s : nat -> bool) (L : nat) : Prop :=
  (exists f, lfsr n s L f) /\ forall L' f, lfsr n s L' f -> L <= L'.
Definition seqbits (bits : list N) : nat -> bool := fun k => N.eqb (nth k bits 0%N) 1.
