(** Concrete matrices for the properties of the matrix inversions under test/github2 to github7 *)
From Coq Require Import Arith ZArith QArith Qcanon List Bool Lia.
From Verif Require Import Base ModelSM4 WBSM4 SpecQ ModelInv Lap Inv0 Inv6 InvGf2.
Import ListNotations.
Open Scope nat_scope.

(** a8 of test/github2 to github4 (test/InvMatrix_test.c) and github6/Inverse_of_matrix.c, lines 189-198,
    and its inverse modulo 2 *)
Definition a8 : list (list Z) := ([[0; 1; 0; 1; 0; 0; 0; 1];
   [1; 1; 0; 0; 1; 0; 1; 1];
   [0; 1; 1; 1; 1; 0; 1; 0];
   [1; 1; 0; 1; 0; 1; 0; 0];
   [1; 0; 0; 0; 1; 0; 0; 1];
   [0; 1; 0; 0; 1; 0; 1; 1];
   [1; 1; 1; 0; 1; 0; 1; 1];
   [1; 1; 0; 0; 0; 0; 0; 1]])%Z.
Definition a8i : list (list Z) := ([[0; 1; 0; 0; 0; 1; 0; 0];
   [1; 1; 1; 0; 0; 1; 1; 0];
   [0; 1; 0; 0; 0; 0; 1; 0];
   [1; 1; 0; 0; 0; 1; 0; 1];
   [1; 1; 1; 0; 1; 1; 1; 1];
   [0; 1; 1; 1; 0; 1; 1; 1];
   [1; 0; 1; 0; 1; 1; 1; 0];
   [1; 0; 1; 0; 0; 0; 1; 1]])%Z.
(** a32 of github7/inverseMatrix.c, lines 33-66, which github7/main.c inverts, and its inverse modulo 2 *)
Definition a32 : list (list Z) := ([[0; 0; 1; 0; 0; 1; 0; 0; 1; 0; 1; 1; 0; 0; 0; 1; 0; 0; 1; 1; 1; 1; 1; 0; 1; 0; 0; 0; 1; 0; 1; 0];
   [0; 0; 1; 0; 0; 0; 1; 0; 0; 0; 0; 0; 1; 1; 1; 0; 0; 0; 0; 0; 0; 0; 0; 0; 0; 0; 0; 0; 1; 0; 0; 0];
   [0; 1; 1; 0; 1; 1; 1; 0; 1; 0; 1; 1; 0; 0; 0; 0; 1; 0; 0; 1; 0; 1; 0; 1; 1; 1; 1; 0; 1; 1; 1; 1];
   [0; 0; 0; 0; 1; 1; 1; 0; 0; 1; 0; 1; 0; 1; 1; 0; 1; 0; 1; 1; 1; 1; 1; 0; 0; 0; 1; 0; 1; 0; 1; 1];
   [1; 1; 0; 0; 0; 1; 1; 0; 0; 0; 0; 0; 0; 1; 0; 0; 1; 1; 0; 0; 1; 0; 1; 0; 1; 1; 1; 0; 1; 1; 0; 1];
   [0; 0; 0; 1; 1; 0; 0; 1; 0; 1; 0; 1; 0; 0; 1; 1; 0; 0; 0; 0; 1; 0; 0; 0; 1; 1; 0; 1; 0; 0; 0; 1];
   [1; 0; 0; 0; 1; 0; 1; 1; 1; 1; 1; 0; 1; 1; 0; 1; 0; 1; 1; 0; 0; 0; 1; 0; 0; 0; 0; 0; 0; 0; 0; 1];
   [1; 0; 0; 1; 1; 0; 0; 0; 1; 0; 0; 0; 1; 1; 1; 0; 1; 1; 1; 1; 1; 0; 1; 0; 0; 1; 1; 0; 1; 0; 1; 0];
   [1; 0; 1; 0; 0; 0; 0; 0; 0; 0; 0; 0; 1; 1; 0; 0; 0; 1; 1; 0; 1; 0; 0; 1; 1; 0; 0; 0; 1; 0; 1; 0];
   [1; 0; 1; 1; 0; 0; 0; 0; 0; 0; 1; 0; 0; 1; 1; 0; 1; 1; 1; 1; 1; 0; 0; 0; 0; 0; 0; 0; 1; 0; 1; 0];
   [1; 0; 0; 1; 0; 1; 1; 1; 0; 1; 1; 0; 1; 1; 1; 1; 1; 1; 1; 0; 0; 1; 0; 1; 1; 0; 0; 0; 0; 0; 1; 0];
   [1; 1; 0; 1; 1; 1; 0; 0; 0; 0; 0; 0; 0; 1; 1; 0; 1; 1; 1; 1; 0; 1; 0; 0; 1; 1; 0; 1; 1; 1; 1; 0];
   [1; 1; 0; 1; 1; 1; 1; 0; 1; 0; 1; 1; 0; 1; 0; 1; 0; 0; 0; 1; 1; 0; 1; 0; 0; 1; 1; 0; 0; 1; 0; 1];
   [1; 1; 1; 1; 0; 0; 1; 0; 1; 0; 0; 1; 0; 0; 1; 0; 1; 0; 1; 1; 0; 1; 1; 1; 0; 0; 0; 0; 1; 1; 1; 1];
   [1; 1; 1; 1; 0; 0; 1; 0; 0; 0; 1; 1; 0; 1; 1; 0; 0; 0; 1; 0; 0; 1; 1; 0; 1; 0; 1; 1; 1; 0; 1; 0];
   [0; 0; 1; 1; 1; 1; 1; 1; 1; 0; 1; 1; 0; 0; 0; 0; 1; 0; 1; 1; 1; 1; 0; 1; 1; 0; 0; 1; 1; 0; 1; 1];
   [1; 1; 0; 1; 0; 0; 0; 0; 0; 1; 0; 1; 0; 0; 1; 1; 1; 0; 0; 0; 1; 1; 0; 1; 0; 1; 0; 0; 1; 1; 0; 1];
   [0; 1; 0; 1; 0; 0; 1; 0; 0; 0; 0; 0; 0; 1; 1; 1; 1; 0; 1; 0; 1; 0; 0; 1; 0; 0; 1; 0; 1; 1; 0; 0];
   [0; 1; 1; 1; 0; 1; 1; 1; 1; 0; 1; 1; 0; 0; 1; 1; 0; 0; 1; 1; 0; 1; 0; 1; 0; 1; 0; 0; 0; 1; 0; 0];
   [1; 0; 1; 0; 0; 1; 1; 0; 1; 0; 0; 1; 0; 1; 1; 1; 1; 0; 1; 1; 1; 1; 1; 1; 0; 1; 0; 1; 1; 0; 0; 0];
   [0; 1; 0; 1; 1; 1; 1; 1; 1; 1; 0; 1; 0; 1; 0; 0; 0; 0; 0; 1; 0; 0; 0; 0; 0; 1; 0; 1; 0; 1; 1; 0];
   [0; 0; 0; 0; 1; 0; 1; 0; 0; 1; 0; 1; 0; 1; 0; 1; 0; 0; 1; 1; 0; 0; 1; 0; 1; 0; 1; 1; 1; 0; 0; 1];
   [0; 1; 1; 0; 1; 0; 0; 1; 0; 0; 0; 0; 1; 0; 1; 0; 1; 0; 0; 1; 1; 0; 1; 0; 1; 1; 1; 1; 0; 1; 0; 1];
   [1; 0; 1; 1; 0; 1; 1; 1; 1; 1; 0; 1; 1; 1; 0; 1; 0; 0; 1; 0; 1; 1; 1; 0; 1; 0; 1; 1; 1; 0; 0; 0];
   [0; 0; 0; 0; 1; 1; 1; 0; 0; 1; 0; 0; 1; 1; 1; 1; 1; 0; 1; 0; 0; 1; 1; 0; 1; 1; 0; 1; 1; 0; 1; 1];
   [0; 0; 0; 0; 0; 0; 1; 0; 0; 0; 1; 1; 1; 0; 0; 1; 0; 0; 0; 0; 0; 1; 0; 0; 0; 0; 1; 1; 1; 1; 0; 1];
   [1; 0; 1; 0; 0; 0; 1; 0; 1; 0; 1; 1; 0; 0; 1; 0; 0; 1; 1; 0; 0; 0; 0; 0; 0; 0; 0; 0; 1; 1; 0; 0];
   [0; 0; 1; 1; 0; 0; 0; 0; 0; 0; 1; 0; 1; 1; 0; 1; 0; 0; 1; 1; 1; 0; 0; 0; 1; 0; 1; 0; 0; 0; 0; 1];
   [0; 0; 0; 1; 0; 0; 1; 1; 0; 0; 1; 0; 1; 0; 1; 0; 0; 0; 1; 1; 0; 1; 0; 1; 1; 1; 1; 0; 1; 0; 1; 1];
   [1; 1; 0; 0; 1; 0; 1; 0; 0; 0; 1; 0; 1; 1; 1; 1; 1; 0; 0; 1; 0; 1; 0; 1; 0; 1; 1; 0; 0; 1; 0; 1];
   [0; 1; 1; 1; 0; 1; 0; 1; 0; 0; 0; 1; 1; 0; 0; 1; 0; 1; 1; 0; 1; 1; 1; 0; 1; 0; 1; 1; 0; 0; 0; 1];
   [1; 1; 1; 0; 0; 1; 1; 0; 0; 1; 0; 0; 0; 0; 0; 0; 1; 0; 1; 1; 1; 1; 1; 0; 0; 1; 0; 0; 1; 1; 0; 0]])%Z.
Definition a32i : list (list Z) := ([[1; 0; 1; 1; 1; 0; 1; 0; 1; 1; 0; 0; 1; 1; 1; 1; 1; 0; 0; 0; 1; 0; 0; 0; 1; 1; 1; 0; 0; 1; 1; 1];
   [1; 0; 1; 0; 0; 0; 0; 0; 1; 1; 0; 1; 1; 1; 1; 1; 1; 1; 0; 1; 0; 0; 1; 0; 1; 1; 0; 0; 1; 0; 1; 0];
   [0; 1; 0; 0; 0; 1; 0; 1; 0; 1; 0; 1; 0; 0; 1; 0; 1; 1; 0; 1; 1; 0; 0; 0; 1; 0; 1; 0; 0; 1; 0; 0];
   [1; 1; 1; 1; 0; 1; 1; 0; 0; 1; 1; 1; 0; 1; 1; 1; 1; 0; 0; 1; 0; 1; 0; 1; 1; 1; 1; 1; 0; 0; 1; 0];
   [1; 1; 1; 0; 0; 1; 0; 0; 0; 0; 1; 1; 0; 0; 0; 0; 1; 1; 0; 1; 0; 1; 0; 0; 1; 0; 1; 1; 1; 0; 1; 1];
   [1; 1; 1; 0; 1; 1; 1; 1; 0; 0; 1; 0; 0; 0; 1; 1; 0; 0; 0; 0; 1; 1; 1; 0; 1; 1; 0; 0; 0; 1; 0; 0];
   [0; 0; 1; 1; 1; 1; 0; 0; 0; 0; 1; 0; 1; 1; 1; 1; 0; 1; 1; 0; 1; 1; 0; 1; 0; 1; 1; 0; 1; 1; 1; 0];
   [0; 1; 1; 0; 0; 1; 1; 0; 0; 0; 1; 0; 0; 0; 0; 1; 1; 1; 0; 0; 0; 0; 0; 0; 1; 0; 1; 0; 0; 1; 1; 1];
   [1; 0; 0; 1; 1; 1; 0; 0; 0; 0; 0; 0; 1; 0; 1; 1; 0; 0; 1; 0; 1; 1; 1; 0; 1; 0; 0; 1; 0; 0; 1; 1];
   [0; 0; 1; 1; 0; 1; 1; 0; 1; 0; 1; 1; 0; 0; 0; 0; 1; 1; 1; 1; 0; 0; 1; 0; 0; 0; 0; 1; 1; 0; 0; 0];
   [1; 0; 0; 0; 0; 0; 1; 1; 1; 0; 1; 1; 1; 0; 1; 0; 0; 0; 1; 0; 1; 0; 1; 0; 1; 0; 0; 0; 0; 1; 1; 0];
   [1; 1; 1; 0; 0; 0; 1; 1; 0; 0; 1; 1; 0; 0; 0; 1; 1; 0; 0; 0; 1; 0; 1; 0; 0; 0; 0; 1; 1; 1; 0; 0];
   [1; 0; 0; 0; 0; 1; 1; 1; 0; 1; 0; 1; 0; 1; 1; 0; 1; 1; 1; 0; 0; 1; 1; 0; 1; 1; 1; 1; 1; 1; 1; 1];
   [1; 1; 0; 1; 0; 0; 0; 1; 1; 0; 0; 1; 1; 0; 0; 0; 1; 1; 0; 0; 0; 1; 1; 1; 0; 1; 0; 0; 1; 0; 1; 0];
   [1; 1; 1; 0; 0; 1; 1; 0; 0; 0; 0; 1; 1; 1; 1; 1; 1; 1; 1; 0; 1; 0; 0; 1; 0; 1; 1; 1; 1; 1; 1; 1];
   [0; 1; 1; 0; 0; 1; 0; 0; 0; 0; 1; 0; 1; 0; 0; 0; 0; 0; 1; 0; 1; 0; 0; 1; 0; 1; 1; 1; 1; 0; 0; 0];
   [0; 1; 0; 1; 1; 0; 1; 1; 0; 0; 0; 0; 1; 1; 0; 1; 0; 1; 1; 1; 1; 1; 1; 0; 1; 1; 0; 0; 0; 1; 1; 1];
   [0; 1; 0; 0; 1; 0; 1; 1; 0; 0; 1; 1; 0; 1; 1; 1; 0; 1; 1; 1; 0; 1; 1; 1; 1; 1; 1; 1; 1; 1; 1; 1];
   [0; 0; 1; 0; 0; 0; 1; 0; 1; 0; 0; 0; 1; 0; 0; 0; 1; 0; 1; 1; 1; 0; 0; 0; 0; 0; 0; 1; 1; 0; 0; 1];
   [0; 0; 0; 0; 0; 0; 1; 1; 0; 0; 1; 1; 0; 1; 1; 0; 1; 1; 0; 0; 0; 0; 0; 0; 0; 1; 1; 1; 1; 1; 1; 1];
   [0; 0; 0; 0; 1; 1; 1; 1; 0; 0; 1; 0; 1; 0; 0; 1; 1; 1; 1; 1; 1; 0; 0; 1; 1; 0; 0; 1; 1; 1; 0; 1];
   [1; 1; 1; 0; 1; 1; 0; 0; 0; 0; 0; 1; 1; 1; 0; 1; 0; 0; 0; 0; 1; 1; 0; 0; 1; 0; 0; 1; 1; 0; 0; 0];
   [1; 1; 1; 0; 1; 0; 1; 1; 0; 0; 1; 0; 1; 1; 1; 0; 1; 1; 1; 0; 0; 1; 1; 1; 1; 1; 0; 0; 1; 1; 0; 0];
   [0; 1; 0; 1; 0; 1; 0; 0; 0; 0; 1; 1; 1; 0; 0; 0; 0; 1; 0; 1; 1; 1; 0; 0; 0; 0; 1; 1; 0; 0; 1; 1];
   [0; 0; 0; 1; 1; 0; 0; 0; 0; 1; 0; 0; 0; 1; 1; 1; 0; 1; 0; 1; 0; 0; 1; 0; 0; 1; 1; 1; 1; 1; 1; 1];
   [0; 1; 1; 1; 1; 0; 0; 0; 1; 1; 0; 0; 0; 1; 0; 1; 1; 0; 0; 1; 0; 0; 1; 0; 1; 1; 0; 0; 1; 1; 1; 1];
   [1; 0; 1; 0; 1; 0; 1; 1; 0; 0; 1; 0; 1; 1; 1; 0; 1; 0; 0; 1; 1; 0; 1; 1; 1; 1; 1; 1; 0; 1; 1; 0];
   [1; 1; 0; 1; 0; 1; 1; 1; 1; 1; 1; 1; 1; 1; 0; 0; 0; 0; 1; 0; 0; 1; 1; 1; 1; 0; 1; 1; 1; 1; 1; 1];
   [1; 0; 0; 0; 1; 0; 0; 1; 1; 0; 1; 0; 1; 1; 0; 0; 0; 1; 1; 1; 1; 1; 0; 1; 0; 0; 0; 0; 0; 0; 0; 0];
   [0; 0; 1; 1; 1; 0; 0; 1; 0; 0; 1; 1; 1; 1; 1; 0; 1; 1; 1; 0; 1; 0; 0; 0; 1; 0; 0; 1; 1; 1; 0; 1];
   [0; 0; 0; 0; 1; 0; 1; 0; 1; 0; 0; 1; 0; 1; 1; 0; 0; 0; 1; 1; 0; 1; 0; 0; 1; 1; 0; 0; 0; 0; 0; 1];
   [1; 0; 0; 1; 1; 1; 1; 1; 1; 0; 0; 0; 0; 1; 1; 1; 0; 0; 1; 0; 0; 1; 1; 1; 0; 1; 1; 1; 1; 1; 1; 1]])%Z.

Lemma a8_inv : qinvertible 8 (qrows a8).
Proof. apply left2b_ok with (B := a8i). vm_compute. reflexivity. Qed.
Lemma a32_inv : qinvertible 32 (qrows a32).
Proof. apply left2b_ok with (B := a32i). vm_compute. reflexivity. Qed.

(** rows of whole numbers as the arrays of the models *)
Definition rm (l : list (list Z)) : rmatrix := map (map q_of_Z) l.
Definition aug (n : nat) (l : list (list Z)) : rmatrix := map (fun r => map q_of_Z r ++ repeat 0%Qc n) l.
Definition padr (N : nat) (l : list (option Qc)) : list (option Qc) := l ++ repeat None (N - length l).
Definition pad (N : nat) (l : list (list Z)) : cells :=
  map (fun r => padr N (map (fun z => Some (q_of_Z z)) r)) l ++ repeat (repeat None N) (N - length l).
Definition flat (l : list (list Z)) : zcells := map Some (concat l).

(** the values of rand() for which the generator of github5 gives a singular matrix *)
Definition rand3 : list Z := ([50; 2; 5; 6; 4; 8; 8; 5; 6; 0; 0; 7; 8; 1; 5; 7; 1; 5; 0; 5; 5; 5; 2; 5; 3; 3; 5; 8; 8; 6; 2; 2; 9; 5; 4; 3; 4; 6; 2; 7; 1; 5; 7; 9; 9; 6; 9; 6; 3; 7; 4; 5; 2; 0; 3; 4; 2; 0; 1; 5; 5; 4; 3; 8; 6; 7; 6; 2; 3; 2; 8; 2; 9; 7; 9; 6; 4; 6; 6; 0; 0; 6; 6; 3; 2; 9; 0; 8; 6; 4; 8; 8; 0; 4; 1; 0; 1; 6; 0; 2; 6; 3; 7; 6; 3; 8; 6; 9; 8; 8; 5; 8; 4; 2; 9; 8; 3; 1; 8; 2; 8; 1; 7; 1; 6; 3; 0; 8; 0; 3; 4; 8; 1; 1; 3; 3; 5; 0; 7; 1; 4; 8; 5; 0; 8; 4; 8; 0; 2; 4; 3; 0; 6; 3; 5; 2; 4; 3; 1; 3; 7; 0; 8; 5; 9; 9; 3; 3; 6; 3; 7; 2; 1; 7; 8; 2; 8; 0; 1; 6; 2; 0; 8; 4; 6; 9; 9; 5; 6; 3; 0; 3; 8; 0; 8; 7; 6; 4; 2; 9; 8; 0; 6; 9; 5; 2; 2; 4; 5; 8; 5; 7; 0; 1; 0; 8; 7; 5; 3; 2; 3; 8; 2; 9; 4; 5; 5; 2; 6; 9; 5; 4; 2; 5; 5; 9; 4; 2; 2; 9; 3; 4; 5; 7; 4; 2; 4; 1; 8; 3; 4; 4; 4; 2; 2; 6; 8; 6; 4; 7; 8; 3; 8; 0; 2; 3; 7; 4; 3; 2; 4; 7; 9; 9; 5; 4; 6; 5; 2; 8; 5; 6; 2; 2; 0; 9; 1; 2; 8; 7; 2; 8; 6; 1; 1; 7; 5; 6; 1; 9; 3; 7; 4; 7; 3; 3; 0; 7; 7; 1; 9; 5; 3; 7; 1; 2; 0; 1; 0; 0; 9; 9; 9; 4; 1; 7; 2; 1; 1; 0; 0; 5; 8; 8; 7; 8; 1; 7; 1; 1; 5; 5; 7; 0; 0; 9; 5; 5; 6; 5; 4; 9; 0; 7; 8; 3; 7; 5; 6; 4; 8; 1; 9; 0; 5; 7; 0; 0; 4; 6; 8; 8; 7; 0; 5; 5; 0; 6; 9; 5; 6; 7; 9; 8; 8; 6; 0; 6; 2; 2; 8; 6; 4; 5; 9; 9; 9; 5; 0; 1; 4; 7; 8; 5; 4; 5; 5; 3; 1; 3; 5; 7; 5; 9; 2; 7; 3; 4; 0; 0; 3; 3; 4; 1])%Z.
Definition stream3 : stream := fun x => nth x rand3 0%Z.

(** these arrays contain the matrices *)
Definition sq (n : nat) (l : list (list Z)) : Prop := length l = n /\ Forall (fun r => length r = n) l.
Lemma sq_row : forall n l i, sq n l -> i < n -> length (nth i l []) = n.
Proof. intros n l i [L F] Hi. rewrite Forall_forall in F. apply F. apply nth_In. lia. Qed.
Lemma nth_mapq : forall (r : list Z) j d, nth j (map q_of_Z r) (q_of_Z d) = q_of_Z (nth j r d).
Proof. intros. apply map_nth. Qed.
Lemma rm_dims : forall n l, sq n l -> dims2 n n (rm l).
Proof.
  intros n l H. split; [unfold rm; rewrite map_length; apply H|]. intros i Hi. unfold rm.
  change (@nil Qc) with (map q_of_Z []). rewrite map_nth, map_length. apply sq_row; auto.
Qed.
Lemma rm_ent : forall l i j, ent (rm l) i j = qrows l i j.
Proof.
  intros l i j. unfold ent, at2, rm, qrows. change (@nil Qc) with (map q_of_Z []). rewrite map_nth.
  change 0%Qc with (q_of_Z 0). apply nth_mapq.
Qed.
Lemma aug_dims : forall n l, sq n l -> dims2 n (2 * n) (aug n l).
Proof.
  intros n l H. split; [unfold aug; rewrite map_length; apply H|]. intros i Hi. unfold aug.
  rewrite (nth_indep _ [] (map q_of_Z [] ++ repeat 0%Qc n)) by (rewrite map_length; destruct H; lia).
  rewrite (map_nth (fun r => map q_of_Z r ++ repeat 0%Qc n)), app_length, map_length, repeat_length, (sq_row n) by auto. lia.
Qed.
Lemma aug_ent : forall n l i j, sq n l -> i < n -> j < n -> ent (aug n l) i j = qrows l i j.
Proof.
  intros n l i j H Hi Hj. unfold ent, at2, aug, qrows.
  rewrite (nth_indep _ [] (map q_of_Z [] ++ repeat 0%Qc n)) by (rewrite map_length; destruct H; lia).
  rewrite (map_nth (fun r => map q_of_Z r ++ repeat 0%Qc n)), app_nth1 by (rewrite map_length, (sq_row n); auto).
  change 0%Qc with (q_of_Z 0). apply nth_mapq.
Qed.
Lemma pad_dims : forall N n l, sq n l -> n <= N -> dims2 N N (pad N l).
Proof.
  intros N n l H HN. pose proof H as [L F]. unfold pad. split; [rewrite app_length, map_length, repeat_length; lia|].
  intros i Hi. destruct (Nat.lt_ge_cases i n) as [Hin|Hin].
  - rewrite app_nth1 by (rewrite map_length; lia).
    rewrite (nth_indep _ [] (padr N (map (fun z => Some (q_of_Z z)) []))) by (rewrite map_length; lia).
    rewrite (map_nth (fun r => padr N (map (fun z => Some (q_of_Z z)) r))).
    unfold padr. rewrite app_length, repeat_length, map_length, (sq_row n) by auto. lia.
  - rewrite app_nth2 by (rewrite map_length; lia). rewrite map_length, L.
    rewrite (nth_indep _ [] (repeat None N)) by (rewrite repeat_length; lia). rewrite nth_repeat. apply repeat_length.
Qed.
Lemma pad_ent : forall N n l i j, sq n l -> n <= N -> i < n -> j < n -> at2 None (pad N l) i j = Some (qrows l i j).
Proof.
  intros N n l i j H HN Hi Hj. pose proof H as [L F]. unfold at2, pad, qrows.
  rewrite app_nth1 by (rewrite map_length; lia).
  rewrite (nth_indep _ [] (padr N (map (fun z => Some (q_of_Z z)) []))) by (rewrite map_length; lia).
  rewrite (map_nth (fun r => padr N (map (fun z => Some (q_of_Z z)) r))).
  unfold padr. rewrite app_nth1 by (rewrite map_length, (sq_row n); auto).
  rewrite (nth_indep _ None (Some (q_of_Z 0))) by (rewrite map_length, (sq_row n); auto).
  rewrite (map_nth (fun z => Some (q_of_Z z))). reflexivity.
Qed.
Lemma flat_holds : forall n l, sq n l -> zholds (n * n) n (flat l) (rowsz l).
Proof.
  intros n l [L F]. unfold flat.
  assert (G : forall k l, length l = k -> Forall (fun r : list Z => length r = n) l ->
    length (concat l) = k * n /\ forall i j, i < k -> j < n -> nth (i * n + j) (concat l) 0%Z = nth j (nth i l []) 0%Z).
  { clear. induction k as [|k IH]; intros [|r l] L F; try discriminate L.
    - split; [reflexivity|intros; lia].
    - inversion F as [|? ? Fr Fl]. subst. destruct (IH l ltac:(cbn in L; lia) Fl) as [L1 E1]. cbn [concat].
      split; [rewrite app_length, L1; lia|]. intros [|i] j Hi Hj.
      + rewrite app_nth1 by lia. reflexivity.
      + rewrite app_nth2 by lia. replace (S i * length r + j - length r) with (i * length r + j) by lia. cbn [nth]. apply E1; lia. }
  destruct (G n l L F) as [G1 G2]. split; [rewrite map_length; auto|]. split; [auto|]. intros i j Hi Hj.
  rewrite (nth_indep _ None (Some 0%Z)) by (rewrite map_length, G1; nia). rewrite map_nth, G2 by auto. reflexivity.
Qed.
Lemma sq8 : sq 8 a8.
Proof. split; [reflexivity|]. repeat constructor. Qed.
Lemma sq32 : sq 32 a32.
Proof. split; [reflexivity|]. repeat constructor. Qed.
