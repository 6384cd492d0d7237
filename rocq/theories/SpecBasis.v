(** Specification of the basis matrix method: a product of matrices drawn from a table. *)
From Coq Require Import Arith NArith List Bool.
From Verif Require Import Spec.
Import ListNotations.

(** f 0 * f 1 * ... * f (k - 1) *)
Fixpoint fprod (n k : nat) (f : nat -> fmat) : fmat :=
  match k with O => fid | S k' => fmul n (fprod n k' f) (f k') end.
