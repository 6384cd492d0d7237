(** Specification of the PLE factorisation, independent of ModelPle2.v *)
From Coq Require Import Arith NArith List Bool.
From Verif Require Import Base Spec ModelM4ri SpecM4ri SpecM4ri2 SpecTri SpecPle.
Import ListNotations.

(** The matrix E that D holds: row k begins with a one in column Q k *)
Definition ple_e (D : fmat) (Q : nat -> nat) : fmat :=
  fun k y => if Nat.ltb y (Q k) then false else if Nat.eqb y (Q k) then true else D k y.
(** A0 is P L E: D holds the unit lower triangular m x r matrix L in the columns below r, and the r x n
    matrix E in echelon form to the right of the columns Q; what is between is zero *)
Definition ple_of (m n r : nat) (A0 D : fmat) (P Q : list nat) : Prop :=
  swaps m P /\ swaps n Q /\ r <= m /\ r <= n /\
  (forall i, r <= i -> i < m -> at_ P i = i) /\ (forall i k, i < k -> k < r -> at_ Q i < at_ Q k) /\
  same m n (fun x y => A0 (perm (at_ P) m x) y) (fmul r (unit_lower D) (ple_e D (at_ Q))) /\
  (forall x y, x < r -> x < y -> y <= at_ Q x -> y < n -> D x y = false) /\
  (forall x y, r <= x -> x < m -> r <= y -> y < n -> D x y = false).
(** A function that computes such a factorisation of every matrix with columns *)
Definition factorises (f : mzd -> list nat -> list nat -> res (mzd * list nat * list nat * nat)) : Prop :=
  forall m n A P Q, valid m n A -> 1 <= n -> length P = m -> length Q = n ->
    exists A' P' Q' r, f A P Q = Ok (A', P', Q', r) /\ valid m n A' /\ ple_of m n r (bitat A) (bitat A') P' Q'.
