(** Specification vocabulary: linear algebra over GF(2) on functions, and the
    meaning of stored matrices and vectors.  Nothing here refers to the modelled
    functions, only to the geometry of the types (bits per element, elements per
    row, dimension). *)
From Coq Require Import Arith NArith List Bool.
From Verif Require Import Model.
Import ListNotations.

(** ** GF(2): [bool] with [xorb] and [andb] *)

(** f 0 + f 1 + ... + f (n-1) *)
Fixpoint xsum (n : nat) (f : nat -> bool) : bool :=
  match n with O => false | S n' => xorb (xsum n' f) (f n') end.

(** n x n matrices: only the values at indices below n matter *)
Definition fmat := nat -> nat -> bool.
Definition fvec := nat -> bool.

Definition feq (n : nat) (A B : fmat) : Prop :=
  forall i j, i < n -> j < n -> A i j = B i j.
Definition veq (n : nat) (x y : fvec) : Prop := forall i, i < n -> x i = y i.

Definition fid : fmat := fun i j => Nat.eqb i j.
Definition fzero : fmat := fun _ _ => false.
Definition ftr (A : fmat) : fmat := fun i j => A j i.
Definition fadd (A B : fmat) : fmat := fun i j => xorb (A i j) (B i j).
Definition fmul (n : nat) (A B : fmat) : fmat :=
  fun i j => xsum n (fun k => A i k && B k j).
Definition fapp (n : nat) (A : fmat) (x : fvec) : fvec :=
  fun i => xsum n (fun k => A i k && x k).
Definition vadd (x y : fvec) : fvec := fun i => xorb (x i) (y i).

Definition inverse_of (n : nat) (A B : fmat) : Prop :=
  feq n (fmul n A B) fid /\ feq n (fmul n B A) fid.
Definition invertible (n : nat) (A : fmat) : Prop := exists B, inverse_of n A B.

(** ** Stored matrices and vectors *)

(** Element k of row i *)
Definition word (m : list (list N)) (i k : nat) : N := nth k (nth i m []) 0%N.

(** Bit in row i, column j: column 0 is the most significant (significant) bit of
    element 0. *)
Definition mbit (w : width) (m : list (list N)) : fmat := fun i j =>
  N.testbit (word m i (j / wb w)) (N.of_nat (wb w - 1 - j mod wb w)).
Definition vbit (w : width) (v : list N) : fvec := fun j =>
  N.testbit (nth (j / wb w) v 0%N) (N.of_nat (wb w - 1 - j mod wb w)).

(** [bits]-bit elements in the right number: [typed] is what the C type gives,
    [wf] in addition asks that M4/V4 elements use the low nibble only. *)
Definition elems_below (bits : nat) (l : list N) : Prop :=
  Forall (fun x => (x < 2 ^ N.of_nat bits)%N) l.
Definition vec_of (w : width) (bits : nat) (v : list N) : Prop :=
  length v = nw w /\ elems_below bits v.
Definition mat_of (w : width) (bits : nat) (m : list (list N)) : Prop :=
  length m = dim w /\ Forall (vec_of w bits) m.
Definition typedM (w : width) := mat_of w (cb w).
Definition typedV (w : width) := vec_of w (cb w).
Definition wfM (w : width) := mat_of w (wb w).
Definition wfV (w : width) := vec_of w (wb w).
(** right number of rows and elements, no condition on the contents *)
Definition shapeM (w : width) (m : list (list N)) : Prop :=
  length m = dim w /\ Forall (fun r => length r = nw w) m.
Definition shapeV (w : width) (v : list N) : Prop := length v = nw w.

(** affine transformations *)
Definition wfA (w : width) (f : aff) : Prop := wfM w (amat f) /\ wfV w (avec f).
Definition shapeA (w : width) (f : aff) : Prop := shapeM w (amat f) /\ shapeV w (avec f).

(** Sum of the bits of a number below 2^n, as bit and as number *)
Definition parity (n : nat) (x : N) : bool := xsum n (fun k => N.testbit x (N.of_nat k)).
Fixpoint weight (n : nat) (x : N) : N :=
  match n with
  | O => 0
  | S n' => weight n' x + (if N.testbit x (N.of_nat n') then 1 else 0)
  end%N.

(** The same for all elements of a vector of the C type (elements of [cb w] bits) *)
Definition b2n (b : bool) : N := if b then 1%N else 0%N.
Definition vparity (w : width) (l : list N) : bool :=
  xsum (nw w) (fun k => parity (cb w) (nth k l 0%N)).
Fixpoint vweight (bits : nat) (l : list N) : N :=
  match l with [] => 0 | x :: l' => weight bits x + vweight bits l' end%N.

(** ** Random generator *)

(** same seed and same clock readings from now on *)
Definition same_seed (s1 s2 : world) : Prop :=
  w_seed s1 = w_seed s2 /\ forall k, w_clk s1 (w_tick s1 + k) = w_clk s2 (w_tick s2 + k).
(** in addition the same generator state *)
Definition same (s1 s2 : world) : Prop :=
  same_seed s1 s2 /\ w_idx s1 = w_idx s2 /\ w_off s1 = w_off s2.

(** result number k of cus_random (counting from 0) when it is called again and again *)
Definition stream (s : world) (k : nat) : N :=
  fst (cus_random (Nat.iter k (fun s => snd (cus_random s)) s)).
