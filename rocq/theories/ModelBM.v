(** Model of test/randomness/sp800_22_linear_complexity_test.py.  Conventions as in ModelRank.v:
    Python integers are unbounded, [UB] is an exception. *)
From Coq Require Import Arith NArith ZArith QArith List Bool.
From Verif Require Import Base ModelRank.
Import ListNotations.
Local Open Scope nat_scope.

(** Python list indexing l[z]: a negative index counts from the end *)
Definition py_ix {A} (l : list A) (z : Z) : res nat :=
  let n := Z.of_nat (length l) in
  if (0 <=? z)%Z && (z <? n)%Z then Ok (Z.to_nat z)
  else if (- n <=? z)%Z && (z <? 0)%Z then Ok (Z.to_nat (n + z))
  else UB.
Definition pget {A} (l : list A) (z : Z) : res A := i <- py_ix l z ;; aget l i.
Definition pset {A} (l : list A) (z : Z) (x : A) : res (list A) := i <- py_ix l z ;; aset l i x.

(** the variables b, c, L, m of berelekamp_massey *)
Record bm := { bm_b : list N; bm_c : list N; bm_L : nat; bm_m : Z }.

(** One round of the while loop of berelekamp_massey for N, lines 41-51.  L <= (N/2) is a
    comparison of rationals (Python 3 divides exactly enough here): 2 L <= N. *)
Definition bm_step (bits : list N) (N : nat) (s : bm) : res bm :=
  let n := Z.of_nat (length bits) in
  let zN := Z.of_nat N in
  d0 <- pget bits zN ;;
  d <- for_up 1 (bm_L s + 1) (fun i d =>
         x <- pget (bm_c s) (Z.of_nat i) ;;
         y <- pget bits (zN - Z.of_nat i) ;;
         Ok (N.lxor d (N.land x y))) d0 ;;
  if N.eqb d 0 then Ok s
  else
    c <- for_up 0 (Z.to_nat (n - zN + bm_m s)) (fun i c =>
           x <- pget c (zN - bm_m s + Z.of_nat i)%Z ;;
           y <- pget (bm_b s) (Z.of_nat i) ;;
           pset c (zN - bm_m s + Z.of_nat i)%Z (N.lxor x y)) (bm_c s) ;;
    if Nat.leb (2 * bm_L s) N
    then Ok {| bm_b := bm_c s; bm_c := c; bm_L := N + 1 - bm_L s; bm_m := zN |}
    else Ok {| bm_b := bm_b s; bm_c := c; bm_L := bm_L s; bm_m := bm_m s |}.
(** berelekamp_massey, lines 29-54 *)
Definition berelekamp_massey (bits : list N) : res (nat * list N) :=
  let z := map (fun _ => 0%N) bits in
  b <- pset z 0 1%N ;;
  c <- pset z 0 1%N ;;
  s <- for_up 0 (length bits) (bm_step bits) {| bm_b := b; bm_c := c; bm_L := 0; bm_m := -1 |} ;;
  Ok (bm_L s, pyslice (bm_c s) 0 (bm_L s)).

(** linear_complexity_test, lines 73-77: the list LC for blocks of M bits *)
Definition complexities (M : nat) (bits : list N) : res (list nat) :=
  for_up 0 (length bits / M) (fun i LC =>
    ' (L, _) <- berelekamp_massey (pyslice bits (i * M) ((i + 1) * M)) ;; Ok (LC ++ [L])) [].

(** lines 79-83 with rational numbers in place of floating point *)
Definition lc_mean (M : nat) : Q :=
  let zM := Z.of_nat M in
  (inject_Z zM / 2 + (inject_Z (if Nat.even M then -1 else 1) + 9) / 36
   - (inject_Z zM / 3 + 2 / 9) / inject_Z (2 ^ zM))%Q.
(** lines 85-88 *)
Definition lc_T (M L : nat) : Q :=
  (inject_Z (if Nat.even M then 1 else -1) * (inject_Z (Z.of_nat L) - lc_mean M) + 2 / 9)%Q.
(** lines 92-106: the class of a value t *)
Definition lc_class (t : Q) : nat :=
  if Qle_bool t (-(5 # 2)) then 0 else if Qle_bool t (-(3 # 2)) then 1
  else if Qle_bool t (-(1 # 2)) then 2 else if Qle_bool t (1 # 2) then 3
  else if Qle_bool t (3 # 2) then 4 else if Qle_bool t (5 # 2) then 5 else 6.
(** the table v, lines 91-106 *)
Definition lc_table (M : nat) (bits : list N) : res (list nat) :=
  LC <- complexities M bits ;;
  Ok (fold_left (fun v L => let k := lc_class (lc_T M L) in upd v k (nth k v 0 + 1)) LC (repeat 0 7)).
(** the table pi, line 109 *)
Definition lc_pi : list Q :=
  [10417 # 1000000; 3125 # 100000; 125 # 1000; 5 # 10; 25 # 100; 625 # 10000; 20833 # 1000000].
