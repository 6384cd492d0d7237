(** Specification side for the matrix inversions over the reals under test/github2 to
    test/github7: matrices of rational numbers as functions, the identity, products, inverses
    and the determinant.  Independent of the models in ModelInv.v. *)
From Coq Require Import Arith ZArith QArith Qcanon List Bool.
Import ListNotations.
Open Scope nat_scope.

Definition qmat := nat -> nat -> Qc.

(** f 0 + ... + f (n-1) *)
Fixpoint qsum (n : nat) (f : nat -> Qc) : Qc :=
  match n with
  | 0 => 0%Qc
  | S m => (qsum m f + f m)%Qc
  end.

Definition qid : qmat := fun i j => if Nat.eqb i j then 1%Qc else 0%Qc.
Definition qmul (n : nat) (A B : qmat) : qmat := fun i j => qsum n (fun k => (A i k * B k j)%Qc).
Definition qeq (n : nat) (A B : qmat) : Prop := forall i j, i < n -> j < n -> A i j = B i j.

(** B is the inverse of A, on both sides *)
Definition qinverse (n : nat) (A B : qmat) : Prop :=
  qeq n (qmul n A B) qid /\ qeq n (qmul n B A) qid.
Definition qinvertible (n : nat) (A : qmat) : Prop := exists B, qinverse n A B.

(** The determinant, by expansion along the first column *)
Definition skip (i j : nat) : nat := if j <? i then j else S j.
Definition sgn (i : nat) : Qc := if Nat.even i then 1%Qc else (-(1))%Qc.
Definition qminor (A : qmat) (i j : nat) : qmat := fun r c => A (skip i r) (skip j c).
Fixpoint qdet (n : nat) (A : qmat) : Qc :=
  match n with
  | 0 => 1%Qc
  | S m => qsum (S m) (fun i => (sgn i * A i 0%nat * qdet m (qminor A i 0))%Qc)
  end.

(** A whole number as a rational *)
Definition q_of_Z (z : Z) : Qc := Q2Qc (inject_Z z).

(** A matrix given by its rows *)
Definition qrows (l : list (list Z)) : qmat := fun i j => q_of_Z (nth j (nth i l []) 0%Z).
