(** Specification of the statistics of the randomness tests, continued: templates, cyclic patterns,
    repetitions; after NIST SP 800-22. *)
From Coq Require Import Arith NArith ZArith QArith List Bool.
Import ListNotations.
Local Open Scope nat_scope.

(** B occurs in w at position p *)
Definition occurs (B w : list N) (p : nat) : Prop := p + length B <= length w /\ firstn (length B) (skipn p w) = B.
(** no proper prefix of B is a suffix of B: occurrences of B cannot overlap *)
Definition unbordered (B : list N) : Prop := forall d, 0 < d < length B -> firstn (length B - d) B <> skipn d B.
(** n is the number of elements of S below k *)
Definition number_below (k : nat) (S : nat -> Prop) (n : nat) : Prop :=
  exists l, NoDup l /\ length l = n /\ forall p, In p l <-> p < k /\ S p.
(** The chi-square value of section 2.7.4: mean (M-m+1)/2^m and variance M (1/2^m - (2m-1)/2^2m) *)
Definition nist_mean (M m : nat) : Q := (inject_Z (Z.of_nat M - Z.of_nat m + 1) / inject_Z (2 ^ Z.of_nat m))%Q.
Definition nist_variance (M m : nat) : Q :=
  (inject_Z (Z.of_nat M) * (1 / inject_Z (2 ^ Z.of_nat m) - inject_Z (2 * Z.of_nat m - 1) / inject_Z (2 ^ (2 * Z.of_nat m))))%Q.
Definition nist_chisq (M m : nat) (W : list nat) : Q :=
  fold_right Qplus 0%Q (map (fun w => let d := (inject_Z (Z.of_nat w) - nist_mean M m)%Q in (d * d / nist_variance M m)%Q) W).
(** u occurs in the cyclic sequence bits at position i *)
Definition cyclic_at (bits u : list N) (i : nat) : Prop :=
  forall j, j < length u -> nth j u 0%N = nth ((i + j) mod (length bits)) bits 0%N.
(** The value psi^2_m of section 2.11.4: c u is the number of occurrences of u, ws the list of all m-bit patterns *)
Definition psi2 (n m : nat) (c : list N -> nat) (ws : list (list N)) : Q :=
  (inject_Z (2 ^ Z.of_nat m) / inject_Z (Z.of_nat n) * inject_Z (Z.of_nat (fold_right plus 0%nat (map (fun u => (c u * c u)%nat) ws))) - inject_Z (Z.of_nat n))%Q.
(** ws lists the m-bit words *)
Definition allwords (m : nat) (ws : list (list N)) : Prop :=
  NoDup ws /\ forall w, In w ws <-> length w = m /\ forall x, In x w -> x = 0%N \/ x = 1%N.
