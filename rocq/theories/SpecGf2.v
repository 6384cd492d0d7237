(** Specification of the numbers, vectors and affine maps of the layer over M4RI, independent of
    the functions of ModelGf2.v. *)
From Coq Require Import Arith NArith ZArith List Bool.
From Verif Require Import Base Spec ModelM4ri SpecM4ri SpecM4ri2 ModelGf2.
Import ListNotations.

(** The n bits of a number, the most significant one first, and the number with the given bits *)
Definition bits (n : nat) (x : N) : fvec := fun i => N.testbit x (N.of_nat (n - 1 - i)).
Fixpoint num (n : nat) (f : fvec) : N :=
  match n with O => 0%N | S n' => (2 * num n' f + (if f n' then 1 else 0))%N end.

(** Column 0 of a matrix *)
Definition col0 (M : mzd) : fvec := fun i => bitat M i 0.

(** The affine map x -> A x + v on vectors, and on numbers of n bits *)
Definition affine_f (n : nat) (A : fmat) (v x : fvec) : fvec := vadd (fapp n A x) v.
Definition affine_n (n : nat) (f : afft) (x : N) : N :=
  num n (affine_f n (bitat (alin f)) (col0 (atrans f)) (bits n x)).

(** An affine map of dimension n as stored *)
Definition valid_aff (n : nat) (f : afft) : Prop := valid n n (alin f) /\ valid n 1 (atrans f).
(** Two affine maps of dimension n that are the inverses of each other, on all vectors *)
Definition inverse_aff (n : nat) (f g : afft) : Prop :=
  forall x, veq n (affine_f n (bitat (alin f)) (col0 (atrans f)) (affine_f n (bitat (alin g)) (col0 (atrans g)) x)) x /\
            veq n (affine_f n (bitat (alin g)) (col0 (atrans g)) (affine_f n (bitat (alin f)) (col0 (atrans f)) x)) x.

(** Uninitialised arrays of 64 words *)
Definition env_ok (e : menv) : Prop := forall b, words64 (ejunk e b).

(** The result of a random word that starts with random() number s, and the n x n matrix that the
    next random words give: row i takes ceil(n / 64) words *)
Definition word_at (rnd : nat -> N) (s : nat) : N :=
  (N.lxor (rnd s mod 2 ^ 31) (N.lxor ((rnd (s + 1)%nat mod 2 ^ 31) * 2 ^ 24) ((rnd (s + 2)%nat mod 2 ^ 31) * 2 ^ 48)))%N.
Definition drawn (n : nat) (rnd : nat -> N) (s : nat) : fmat := fun i j =>
  N.testbit (word_at rnd (s + 3 * (i * ((n + 63) / 64) + j / 64))) (N.of_nat (j mod 64)).
(** The position of draw number t *)
Definition draw_pos (n s t : nat) : nat := s + t * (3 * (n * ((n + 63) / 64))).
(** Draw number t is the first one that is invertible *)
Definition first_invertible (n : nat) (rnd : nat -> N) (s t : nat) : Prop :=
  invertible n (drawn n rnd (draw_pos n s t)) /\ forall t', t' < t -> ~ invertible n (drawn n rnd (draw_pos n s t')).
(** From every position that is a multiple of 3 at most fuel + 1 draws are needed until one is
    invertible *)
Definition fair (fuel n : nat) (rnd : nat -> N) : Prop :=
  forall s, s mod 3 = 0 -> exists t, t <= fuel /\ invertible n (drawn n rnd (draw_pos n s t)).

(** Block diagonal matrix: an n x n block and another one below and to the right of it *)
Definition block_diag (n : nat) (f g : fmat) : fmat := fun i j =>
  if Nat.ltb i n then Nat.ltb j n && f i j else negb (Nat.ltb j n) && g (i - n) (j - n).

(** The four bytes of a number, the least significant one first, and an exported matrix: the two
    sizes and one character '0' (48) or '1' (49) for each entry, row after row *)
Definition le4 (x : N) : list N := [x mod 256; x / 256 mod 256; x / 65536 mod 256; x / 16777216 mod 256]%N.
Definition str_of (R C : nat) (f : fmat) : list N :=
  le4 (N.of_nat R) ++ le4 (N.of_nat C) ++
  map (fun k => if f (k / C) (k mod C) then 49%N else 48%N) (seq 0 (R * C)).
(** An exported affine map: the number of bytes of the whole string, the matrix and the vector *)
Definition str_aff (n : nat) (f : afft) : list N :=
  le4 (20 + N.of_nat (n * n) + N.of_nat n) ++ str_of n n (bitat (alin f)) ++ str_of n 1 (bitat (atrans f)).

(** A destination pointer: NULL or a matrix that has not been freed *)
Definition usable (h : heap) (dst : ptr) : Prop := dst = None \/ exists M, deref h dst = Ok M.
(** The matrix at dst has been replaced by the matrix M at the new address p; the old one is no longer
    there, all others are unchanged *)
Definition replaced (h : heap) (dst : ptr) (h' : heap) (p : ptr) (M : mzd) : Prop :=
  deref h p = UB /\ deref h' p = Ok M /\ p <> dst /\ deref h' dst = UB /\
  forall q, q <> p -> q <> dst -> deref h' q = deref h q.
