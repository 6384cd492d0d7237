(** Specification of the M4RI operations of ModelM4ri2.v, independent of its functions. *)
From Coq Require Import Arith NArith List Bool.
From Verif Require Import Base Spec.
Import ListNotations.

(** A stack array of 64 words with arbitrary content *)
Definition words64 (l : list N) : Prop := length l = 64 /\ forall w, In w l -> (w < 2 ^ 64)%N.

(** An r x c matrix small enough to be allocated as one block of words (mzd.c splits a matrix of more
    than 2^27 words into several blocks): rows times columns, both rounded up, at most 2^32 bits *)
Definition small (r c : nat) : Prop := (N.max (N.of_nat r) 64 * (N.of_nat c + 127) <= 2 ^ 32)%N.

Definition same (R C : nat) (A B : fmat) : Prop := forall i j, i < R -> j < C -> A i j = B i j.

(** Order of matrices of the same size: the first different row decides, there the last different
    column *)
Definition row_before (C : nat) (a b : nat -> bool) : Prop :=
  exists c, c < C /\ a c = false /\ b c = true /\ forall c', c < c' -> c' < C -> a c' = b c'.
Definition mat_before (R C : nat) (A B : fmat) : Prop :=
  exists i, i < R /\ (forall i' c, i' < i -> c < C -> A i' c = B i' c) /\ row_before C (A i) (B i).
