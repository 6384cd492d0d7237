(** Specification of the statistics of the randomness tests, after NIST SP 800-22. *)
From Coq Require Import Arith NArith ZArith List Bool.
Import ListNotations.
Local Open Scope nat_scope.

Definition isbits (bits : list N) : Prop := forall x, In x bits -> x = 0%N \/ x = 1%N.
Definition ones (bits : list N) : nat := count_occ N.eq_dec bits 1%N.

(** The sequence consists of r runs: r non-empty constant pieces, neighbours of different value *)
Fixpoint pieces (bs : list (N * nat)) : list N :=
  match bs with [] => [] | (b, k) :: bs' => repeat b k ++ pieces bs' end.
Fixpoint alternating (bs : list (N * nat)) : Prop :=
  match bs with
  | [] => True
  | (b, k) :: bs' => 0 < k /\ match bs' with [] => True | (b', _) :: _ => b <> b' end /\ alternating bs'
  end.
Definition runs (bits : list N) (r : nat) : Prop :=
  exists bs, pieces bs = bits /\ alternating bs /\ length bs = r.

(** There are r ones in a row in w *)
Definition ones_row (w : list N) (r : nat) : Prop :=
  exists i, i + r <= length w /\ forall j, j < r -> nth (i + j) w 0%N = 1%N.
(** The longest run of ones in w has length r *)
Definition longest_is (w : list N) (r : nat) : Prop := ones_row w r /\ forall r', ones_row w r' -> r' <= r.

(** The position of the walk after k steps: +1 for a bit 1, -1 for a bit 0 *)
Definition walk (bits : list N) (k : nat) : Z :=
  (2 * Z.of_nat (ones (firstn k bits)) - Z.of_nat (length (firstn k bits)))%Z.
