(** Specification of M4RI matrices, independent of the functions of ModelM4ri.v: what a word
    array means as a matrix of bits, and which arrays are valid. *)
From Coq Require Import Arith NArith List Bool.
From Verif Require Import Base Spec ModelM4ri.
Import ListNotations.

(** Entry (i, j): bit j mod 64 of word j / 64 of row i, counted from the least significant bit
    (mzd.h, "the layout of a matrix") *)
Definition rowbit (row : list N) (j : nat) : bool :=
  N.testbit (nth (j / 64) row 0%N) (N.of_nat (j mod 64)).
Definition bitat (M : mzd) : fmat := fun i j => rowbit (nth i (mrows M) []) j.

(** A valid R x C matrix: R rows of ceil(C / 64) words of 64 bits, the bits beyond column C
    are zero *)
Definition validrow (C : nat) (row : list N) : Prop :=
  length row = (C + 63) / 64 /\ (forall w, In w row -> (w < 2 ^ 64)%N) /\
  (forall j, C <= j -> rowbit row j = false).
Definition valid (R C : nat) (M : mzd) : Prop :=
  mnrows M = R /\ mncols M = C /\ length (mrows M) = R /\
  (forall row, In row (mrows M) -> validrow C row).

(** Product of an R x n and an n x C matrix; row equivalence: B = V A with V invertible *)
Definition is_product (R n C : nat) (A B P : fmat) : Prop :=
  forall i j, i < R -> j < C -> P i j = fmul n A B i j.
Definition row_equiv (R C : nat) (A B : fmat) : Prop :=
  exists V, invertible R V /\ forall i j, i < R -> j < C -> B i j = fmul R V A i j.

(** Reduced row echelon form with [r] pivots in columns q 0 < q 1 < ... *)
Definition rref (R C : nat) (B : fmat) (r : nat) : Prop :=
  r <= R /\
  exists q, (forall l, l < r -> q l < C) /\ (forall l l', l < l' -> l' < r -> q l < q l') /\
    (forall l j, l < r -> j < q l -> B l j = false) /\
    (forall l i, l < r -> i < R -> B i (q l) = Nat.eqb i l) /\
    (forall i j, r <= i -> i < R -> j < C -> B i j = false).
(** Row echelon form, not necessarily reduced *)
Definition echelon (R C : nat) (B : fmat) (r : nat) : Prop :=
  r <= R /\
  exists q, (forall l, l < r -> q l < C) /\ (forall l l', l < l' -> l' < r -> q l < q l') /\
    (forall l j, l < r -> j < q l -> B l j = false) /\
    (forall l, l < r -> B l (q l) = true) /\
    (forall i j, r <= i -> i < R -> j < C -> B i j = false).
