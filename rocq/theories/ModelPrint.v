(** Model of the printing functions of src/WBMatrix/WBMatrix.c.

    Output is the string sent to stdout.  [printf] interprets the formats used; a
    conversion whose argument has another type is undefined behaviour (C11 7.21.6.1p9).
    uint8_t, uint16_t arguments are promoted to int and uint32_t is unsigned int: all are
    [AInt] (their values are never negative).  uint64_t arguments are [ALong]; it is assumed
    that %llx is the right conversion for uint64_t (true where uint64_t is unsigned long
    long, as on Windows and macOS; on LP64 Linux the types have the same representation). *)
From Coq Require Import Arith NArith List Bool String Ascii.
From Verif Require Import Base Tables Model.
Import ListNotations.
Local Open Scope string_scope.

Inductive carg := AInt (n : N) | ALong (n : N).

(** '0'..'9', 'a'..'f' *)
Definition digit (d : N) : ascii :=
  ascii_of_N (if N.ltb d 10 then 48 + d else 87 + d)%N.
(** digits of n in base b without leading zeros; f bounds the number of digits *)
Fixpoint digits (b : N) (f : nat) (n : N) (acc : string) : string :=
  match f with
  | O => acc
  | S f' =>
      let acc' := String (digit (n mod b)) acc in
      if N.ltb n b then acc' else digits b f' (n / b) acc'
  end%N.
Definition show (b : N) (n : N) : string := digits b (S (N.size_nat n)) n "".

(** printf with at most one argument: %x, %llx and %d *)
Fixpoint printf (fmt : string) (arg : option carg) : res string :=
  match fmt with
  | EmptyString => Ok ""
  | String "%" (String "x" f) =>
      match arg with
      | Some (AInt n) => r <- printf f None ;; Ok (show 16 n ++ r)
      | _ => UB
      end
  | String "%" (String "d" f) =>
      match arg with
      | Some (AInt n) => r <- printf f None ;; Ok (show 10 n ++ r)
      | _ => UB
      end
  | String "%" (String "l" (String "l" (String "x" f))) =>
      match arg with
      | Some (ALong n) => r <- printf f None ;; Ok (show 16 n ++ r)
      | _ => UB
      end
  | String "%" _ => UB
  | String c f => r <- printf f arg ;; Ok (String c r)
  end.

(** "\n" *)
Definition nl : string := String (ascii_of_nat 10) "".

(** for (i = a; i < b; i++) { output of body i } *)
Definition out_loop (a b : nat) (body : nat -> res string) : res string :=
  for_up a b (fun i out => x <- body i ;; Ok (out ++ x)) "".

(** format and argument for one element: "0x%x" up to 32 bits, "0x%llx" for 64-bit
    elements; followed by a space, or by a newline for the last element of a row *)
Definition elem_fmt (w : width) (k : nat) : string :=
  (match w with W64 | W128 | W256 => "0x%llx" | _ => "0x%x" end)
  ++ (if Nat.eqb k (nw w - 1) then nl else " ").
Definition elem_arg (w : width) (n : N) : carg :=
  match w with W64 | W128 | W256 => ALong n | _ => AInt n end.

(** printM4..printM256, lines 361-420 *)
Definition printM (w : width) (m : mat) : res string :=
  out_loop 0 (dim w) (fun i =>
    out_loop 0 (nw w) (fun k =>
      x <- mget m i k ;; printf (elem_fmt w k) (Some (elem_arg w x)))).

(** printV4..printV256, lines 421-452 *)
Definition printV (w : width) (v : vec) : res string :=
  out_loop 0 (nw w) (fun k =>
    x <- aget v k ;; printf (elem_fmt w k) (Some (elem_arg w x))).

(** printU8, printU16, printU32: lines 2130-2141 *)
Definition printU8 (n : N) : res string := printf ("0x%x" ++ nl) (Some (AInt n)).
Definition printU16 (n : N) : res string := printf ("0x%x" ++ nl) (Some (AInt n)).
Definition printU32 (n : N) : res string := printf ("0x%x" ++ nl) (Some (AInt n)).
(** printU64: lines 2142-2145; the format is "0llx%x\n" *)
Definition printU64 (n : N) : res string := printf ("0llx%x" ++ nl) (Some (ALong n)).
(** printU128: lines 2146-2150 *)
Definition printU128 (n : list N) : res string :=
  x <- aget n 0 ;; a <- printf "0llx%x " (Some (ALong x)) ;;
  y <- aget n 1 ;; b <- printf ("0llx%x" ++ nl) (Some (ALong y)) ;; Ok (a ++ b).
(** printU256: lines 2151-2157 *)
Definition printU256 (n : list N) : res string :=
  x <- aget n 0 ;; a <- printf "0x%llx " (Some (ALong x)) ;;
  y <- aget n 1 ;; b <- printf "0x%llx " (Some (ALong y)) ;;
  z <- aget n 2 ;; c <- printf "0x%llx " (Some (ALong z)) ;;
  t <- aget n 3 ;; d <- printf ("0x%llx" ++ nl) (Some (ALong t)) ;;
  Ok (a ++ b ++ c ++ d).

(** printbitM4..printbitM128, lines 2158-2266 (there is no printbitM256; the instance W256
    is the evident continuation).  temp is tested at its top significant bit (0x08, 0x80,
    ...) and shifted left; the assignment truncates to the element type.  Elements of a
    row follow each other without a separator. *)
Definition printbit (w : width) (m : mat) : res string :=
  rows <- out_loop 0 (dim w) (fun i =>
    line <- out_loop 0 (nw w) (fun k =>
      x <- mget m i k ;;
      r <- for_up 0 (wb w) (fun _ st =>
             let (out, temp) := st : string * N in
             o <- printf "%d " (Some (AInt
                    (if N.eqb (N.land temp (2 ^ N.of_nat (wb w - 1))) 0 then 0 else 1)%N)) ;;
             Ok (out ++ o, trunc w (N.shiftl temp 1))) ("", x) ;;
      Ok (fst r)) ;;
    e <- printf nl None ;; Ok (line ++ e)) ;;
  e <- printf nl None ;; Ok (rows ++ e).
