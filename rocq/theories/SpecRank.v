(** What the rank of a matrix of bits is: the largest number of linearly independent rows. *)
From Coq Require Import Arith NArith List Bool.
From Verif Require Model.
From Verif Require Import Spec.
Import ListNotations.

(** The list of R rows of C numbers 0 or 1, and the matrix over GF(2) it stands for *)
Definition bitmat (R C : nat) (m : list (list N)) : Prop :=
  length m = R /\
  forall row, In row m -> length row = C /\ forall x, In x row -> x = 0%N \/ x = 1%N.
Definition pbits (m : list (list N)) : fmat := fun i j => N.eqb (nth j (nth i m []) 0%N) 1.

(** The rows of A (R rows, C columns) with index in I are linearly independent: the only
    combination of them which is zero is the trivial one *)
Definition indep (R C : nat) (A : fmat) (I : list nat) : Prop :=
  forall c : fvec, (forall i, c i = true -> In i I) ->
    (forall j, j < C -> xsum R (fun i => c i && A i j) = false) -> forall i, c i = false.
Definition rows_of (R : nat) (I : list nat) : Prop := NoDup I /\ forall i, In i I -> i < R.
Definition rank_is (R C : nat) (A : fmat) (r : nat) : Prop :=
  (exists I, rows_of R I /\ length I = r /\ indep R C A I) /\
  (forall I, rows_of R I -> indep R C A I -> length I <= r).

(** Block number k of a sequence of bits cut into blocks of n by n bits, each read as a matrix in
    the order of its rows *)
Definition blk (n : nat) (bits : list N) (k : nat) : fmat :=
  fun i j => N.eqb (nth (k * (n * n) + i * n + j) bits 0%N) 1.

(** The bytes of a 32-bit word in memory, and the file with the matrices of [ms] (rows of
    one word) one after the other, as fwrite would put them there *)
Definition word_bytes (e : Model.endian) (x : N) : list N :=
  let b k := N.land (N.shiftr x (8 * k)) 255 in
  match e with Model.LE => [b 0; b 1; b 2; b 3] | Model.BE => [b 3; b 2; b 1; b 0] end%N.
Definition matrix_bytes (e : Model.endian) (m : list (list N)) : list N :=
  concat (map (word_bytes e) (concat m)).
Definition file_bytes (e : Model.endian) (ms : list (list (list N))) : list N :=
  concat (map (matrix_bytes e) ms).
