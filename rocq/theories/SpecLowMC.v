(** Specification for test/LowMCMethod_text.cpp: the sequence of the Grain LFSR, and runs of
    consecutive calls. *)
From Coq Require Import Arith NArith List Bool.
From Verif Require Import Base Model Spec ModelLowMC.

(** the sequence s(0), s(1), ... produced by the LFSR started with all ones: the feedback
    polynomial of Grain, s(i+80) = s(i) + s(i+13) + s(i+23) + s(i+38) + s(i+51) + s(i+62) *)
Definition grain_rec (s : nat -> bool) : Prop := forall i,
  s (i + 80) = xorb (s i) (xorb (s (i + 13)) (xorb (s (i + 23)) (xorb (s (i + 38))
                 (xorb (s (i + 51)) (s (i + 62)))))).
Definition grain (s : nat -> bool) : Prop := (forall i, i < 80 -> s i = true) /\ grain_rec s.

(** the result of the n-th of a series of consecutive calls of getrandbit, and the state after
    it, when the static variable holds st before the first (number 0) *)
Fixpoint nth_call (n : nat) (st : N) : res (bool * N) :=
  match n with
  | O => randbit st
  | S n' => bind (randbit st) (fun r => nth_call n' (snd r))
  end.
(** the matrix after k + 1 consecutive calls of RandbitMat on the same matrix *)
Fixpoint nth_mat (w : width) (k : nat) (t : list (list N)) (st : N) : res (list (list N) * N) :=
  match k with
  | O => RandbitMat w t st
  | S k' => bind (RandbitMat w t st) (fun r => nth_mat w k' (fst r) (snd r))
  end.
(** the upper four bits of the bytes in which a 4-bit matrix is stored, as a 4 x 4 matrix *)
Definition hbit (m : list (list N)) : fmat := fun i j => N.testbit (word m i 0) (N.of_nat (7 - j)).
