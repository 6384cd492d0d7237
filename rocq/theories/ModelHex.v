(** Model of the hexadecimal helpers of test/WBAES/WBMatrix/test/main.c (the same functions are in
    test/WBAES/M4RI/test/main.c and test/WBAES/NTL/test/main.cpp).  A char is its bit pattern 0 to
    255; the bit patterns from 128 on are negative chars and lie in none of the ranges, as here.
    Printed text is the list of its characters. *)
From Coq Require Import Arith NArith List Bool.
From Verif Require Import Base.
Import ListNotations.
Local Open Scope N_scope.

(** ascii2hex, lines 44-57: [out] is not initialised *)
Definition ascii2hex (c : N) : res N :=
  let out := None in
  let out := if N.leb 48 c && N.leb c 57 then Some (c - 48) else out in
  let out := if N.leb 65 c && N.leb c 70 then Some (c - 65 + 10) else out in
  let out := if N.leb 97 c && N.leb c 102 then Some (c - 97 + 10) else out in
  match out with Some v => Ok v | None => UB end.

(** asciiStr2hex, lines 59-63; the sum is computed in int and converted to char *)
Fixpoint str2hex_loop (fuel i j : nat) (inp out : list N) (len : nat) : res (list N) :=
  match fuel with
  | O => Ok out
  | S fuel =>
      if Nat.ltb i len then
        c <- aget inp i ;; h <- ascii2hex c ;;
        c <- aget inp (i + 1) ;; l <- ascii2hex c ;;
        out <- aset out j ((N.shiftl h 4 + l) mod 256) ;;
        str2hex_loop fuel (i + 2) (j + 1) inp out len
      else Ok out
  end.
(** [len] turns are more than enough, i grows by 2 *)
Definition asciiStr2hex (inp out : list N) (len : nat) : res (list N) := str2hex_loop len 0 0 inp out len.

(** The conversion %.2X of printf, line 36 *)
Definition hex_digit (v : N) : N := if N.ltb v 10 then 48 + v else 65 + (v - 10).
(** printstate, lines 34-42: what is printed *)
Definition printstate (inp : list N) : res (list N) :=
  s <- for_up 0 16 (fun i s => x <- aget inp i ;; Ok (s ++ [hex_digit (x / 16); hex_digit (x mod 16)])) [] ;;
  Ok (s ++ [10]).
