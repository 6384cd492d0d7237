(** Specification of permutations, factorisations and linear systems, independent of ModelPle.v *)
From Coq Require Import Arith NArith List Bool.
From Verif Require Import Base Spec ModelM4ri SpecM4ri SpecM4ri2 SpecTri.
Import ListNotations.

(** The transposition of a and b *)
Definition tr (a b x : nat) : nat := if Nat.eqb x a then b else if Nat.eqb x b then a else x.
(** The permutation given by n transpositions of i and P i *)
Fixpoint perm (P : nat -> nat) (n : nat) (x : nat) : nat :=
  match n with O => x | S m => perm P m (tr m (P m) x) end.
(** Its inverse *)
Fixpoint iperm (P : nat -> nat) (n : nat) (x : nat) : nat :=
  match n with O => x | S m => tr m (P m) (iperm P m x) end.
(** A list of transpositions of n things *)
Definition swaps (n : nat) (P : list nat) : Prop :=
  length P = n /\ forall i, i < n -> i <= nth i P 0 /\ nth i P 0 < n.
Definition at_ (P : list nat) (i : nat) : nat := nth i P 0.

(** A0 is P L U Q: D holds the unit lower triangular m x r matrix L and the unit upper triangular r x n
    matrix U *)
Definition pluq_of (m n r : nat) (A0 D : fmat) (P Q : list nat) : Prop :=
  swaps m P /\ swaps n Q /\ r <= m /\ r <= n /\
  same m n (fun x y => A0 (perm (at_ P) m x) (perm (at_ Q) n y)) (fmul r (unit_lower D) (unit_upper D)).

(** X solves A0 X = B *)
Definition solves (m n c : nat) (A0 X B : fmat) : Prop := same m c (fmul n A0 X) B.
(** The columns of K (n x d) are a basis of the kernel of A0 *)
Definition kernel_basis (m n d : nat) (A0 K : fmat) : Prop :=
  (forall v, (forall i, i < m -> xsum n (fun j => A0 i j && v j) = false) <->
             exists w, forall j, j < n -> v j = xsum d (fun k => K j k && w k)) /\
  (forall w, (forall j, j < n -> xsum d (fun k => K j k && w k) = false) -> forall k, k < d -> w k = false).
