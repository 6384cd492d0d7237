(** Specification of the triangular systems, independent of ModelTri.v *)
From Coq Require Import Arith NArith List Bool.
From Verif Require Import Base Spec ModelM4ri SpecM4ri.

(** A matrix of these dimensions whose rows can be read: as [valid], but the bits beyond the last
    column may be anything (a window into a wider matrix) *)
Definition readable (R C : nat) (M : mzd) : Prop :=
  mnrows M = R /\ mncols M = C /\ length (mrows M) = R /\
  forall row, In row (mrows M) -> length row = (C + 63) / 64 /\ forall w, In w row -> (w < 2 ^ 64)%N.

(** The unit triangular matrices of a matrix: what is on the diagonal and on its other side does not
    matter *)
Definition unit_lower (L : fmat) : fmat := fun i j => if Nat.ltb j i then L i j else Nat.eqb i j.
Definition unit_upper (U : fmat) : fmat := fun i j => if Nat.ltb i j then U i j else Nat.eqb i j.
