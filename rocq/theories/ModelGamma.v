(** Model of test/randomness/gamma_functions.py over the real numbers (rounding is not modelled).
    [UB] is a ZeroDivisionError. *)
From Coq Require Import Reals.
From Verif Require Import Base.
Local Open Scope R_scope.

(** division of floats: ZeroDivisionError for a zero divisor *)
Definition fdiv (x y : R) : res R := if Req_EM_T y 0 then UB else Ok (x / y).
(** upper_incomplete_gamma, lines 8-24, for 0 < d; k = iterations - d, iterations = 100.  The real
    numbers m of lines 13, 19 and 22 are d/2 and 1 + (d-1)/2. *)
Fixpoint upper_cf (k : nat) (a x : R) : res R :=
  let d := (100 - k)%nat in
  match k with
  | O => if Nat.odd d then Ok 1 else Ok (x + (INR d / 2 - a))
  | S k' =>
      r <- upper_cf k' a x ;;
      if Nat.odd d then q <- fdiv (1 + (INR d - 1) / 2 - a) r ;; Ok (x + q)
      else q <- fdiv (INR d / 2) r ;; Ok (1 + q)
  end.
(** the case d = 0, lines 15-17; 0.0**a is 0.0 for a > 0 *)
Definition upper_incomplete_gamma (a x : R) : res R :=
  r <- upper_cf 99 a x ;;
  fdiv ((if Req_EM_T x 0 then 0 else Rpower x a) * exp (- x)) r.
(** gammaincc, lines 66-67, for a positive integer a: gamma(a) = (a-1)! *)
Definition gammaincc (a : nat) (x : R) : res R :=
  g <- upper_incomplete_gamma (INR a) x ;; fdiv g (INR (fact (a - 1))).
