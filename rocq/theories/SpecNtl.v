(** Specification for the matrix layer over NTL, independent of the functions of ModelNtl.v. *)
From Coq Require Import Arith NArith ZArith List Bool.
From Verif Require Import Base Spec SpecGf2 ModelNtl.
Import ListNotations.

(** The entries of a matrix and of a vector *)
Definition gat (A : gmat) : fmat := fun i j => nth j (nth i (gdata A) []) false.
Definition gv (v : gvec) : fvec := fun i => nth i v false.
(** A matrix with R rows and C columns *)
Definition gok (R C : nat) (A : gmat) : Prop :=
  grows A = R /\ gcols A = C /\ length (gdata A) = R /\ forall r, In r (gdata A) -> length r = C.

(** What is assumed about NTL: the determinant of a square matrix is 1 exactly if there is an inverse,
    and inv gives it *)
Definition ntl_ok (nt : ntl) : Prop := forall n A, gok n n A ->
  (tdet nt A = true <-> invertible n (gat A)) /\
  (invertible n (gat A) -> gok n n (tinv nt A) /\ inverse_of n (gat A) (gat (tinv nt A))).

(** The number of ones in a row *)
Definition ones (l : list bool) : nat := count_occ bool_dec l true.
(** m bits of the random sequence from position s *)
Definition block (rnd : nat -> bool) (m s : nat) : list bool := map rnd (seq s m).
(** n rows of m bits are taken from position s to position s'; blocks with exactly one 1 are passed over *)
Inductive rows_from (rnd : nat -> bool) (m : nat) : nat -> nat -> nat -> list (list bool) -> Prop :=
| rows_end : forall s, rows_from rnd m 0 s s []
| rows_skip : forall n s s' l, ones (block rnd m s) = 1 -> rows_from rnd m (S n) (s + m) s' l ->
    rows_from rnd m (S n) s s' l
| rows_take : forall n s s' l, ones (block rnd m s) <> 1 -> rows_from rnd m n (s + m) s' l ->
    rows_from rnd m (S n) s s' (block rnd m s :: l).
(** The first invertible one of the n x n matrices that are taken one after the other from position s *)
Inductive inv_from (rnd : nat -> bool) (n : nat) : nat -> nat -> list (list bool) -> Prop :=
| inv_take : forall s s' l, rows_from rnd n n s s' l -> invertible n (gat (mkgmat n n l)) -> inv_from rnd n s s' l
| inv_skip : forall s s1 s' l1 l, rows_from rnd n n s s1 l1 -> ~ invertible n (gat (mkgmat n n l1)) ->
    inv_from rnd n s1 s' l -> inv_from rnd n s s' l.
(** From every position an invertible n x n matrix is found *)
Definition always (rnd : nat -> bool) (n : nat) : Prop := forall s, exists s' l, inv_from rnd n s s' l.

(** The affine map on numbers of n bits *)
Definition affine_g (n : nat) (f : gaff) (x : N) : N :=
  num n (affine_f n (gat (glin f)) (gv (gtra f)) (bits n x)).
(** The bits of the number x, the most significant one first, as a vector of n entries *)
Definition vbits (n : nat) (x : N) : gvec := map (bits n x) (seq 0 n).
