(** The regularised upper incomplete gamma function Q(a, x) for a positive integer a, in closed form:
    the p-value of a chi-square value 2x with 2a degrees of freedom. *)
From Coq Require Import NArith Reals List.
Local Open Scope R_scope.
Definition gamma_q (a : nat) (x : R) : R := exp (- x) * sum_f_R0 (fun k => x ^ k / INR (fact k)) (a - 1).
(** Sum of (c u / n) ln (c u / n) over the words u of ws with c u > 0: phi^(m) of NIST SP 800-22, section 2.12.4 *)
Definition entropy_sum (n : nat) (c : list N -> nat) (ws : list (list N)) : R :=
  fold_right (fun u s => (if Nat.eqb (c u) 0 then 0 else INR (c u) / INR n * ln (INR (c u) / INR n)) + s) 0 ws.
