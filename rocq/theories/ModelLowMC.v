(** Model of test/LowMCMethod_text.cpp: invertible matrices by rejection, from a bit generator
    (the Grain LFSR used as a self-shrinking generator). *)
From Coq Require Import Arith NArith List Bool.
From Verif Require Import Base Tables Model.
Import ListNotations.

(** ** getrandbit, lines 29-61 *)

(** state[0] ^ state[13] ^ ... ^ state[62] (lines 39-40, 50-51, 55-56); bit i of the number is
    state[i] of the std::bitset<80> *)
Definition taps (st : N) : bool :=
  xorb (xorb (xorb (xorb (xorb (N.testbit st 0) (N.testbit st 13)) (N.testbit st 23))
       (N.testbit st 38)) (N.testbit st 51)) (N.testbit st 62).
(** tmp = ...; state >>= 1; state[79] = tmp (lines 39-42, 50-53, 55-58): tmp and the state *)
Definition lfsr (st : N) : bool * N :=
  let tmp := taps st in (tmp, N.lor (N.shiftr st 1) (if tmp then 2 ^ 79 else 0))%N.
(** the initialisation (lines 34-44) *)
Definition init_state (st : N) : N :=
  if N.eqb st 0 then Nat.iter 160 (fun st => snd (lfsr st)) (2 ^ 80 - 1)%N else st.
(** the loop (lines 48-59), at most [fuel] rounds; [None]: choice is still 0 after them *)
Fixpoint shrink (fuel : nat) (st : N) : option (bool * N) :=
  match fuel with
  | O => None
  | S f =>
      let (choice, st1) := lfsr st in
      let (tmp, st2) := lfsr st1 in
      if choice then Some (tmp, st2) else shrink f st2
  end.
(** st is the static variable state; the result is the returned bit and the new state *)
Definition getrandbit (fuel : nat) (st : N) : option (bool * N) := shrink fuel (init_state st).
(** getrandbit where 80 rounds suffice; theorem C60 shows that they always do, so the case
    None (represented as UB) never occurs *)
Definition randbit (st : N) : res (bool * N) :=
  match getrandbit 80 st with Some r => Ok r | None => UB end.

(** ** The matrices *)

(** line 63 *)
Definition identM4 : list N :=
  [0x8; 0x4; 0x2; 0x1]%N.
(** line 64 *)
Definition identM8 : list N :=
  [0x80; 0x40; 0x20; 0x10; 0x8; 0x4; 0x2; 0x1]%N.
(** line 65 *)
Definition identM16 : list N :=
  [0x8000; 0x4000; 0x2000; 0x1000; 0x800; 0x400; 0x200; 0x100; 0x80; 0x40; 0x20; 0x10; 0x8;
   0x4; 0x2; 0x1]%N.
(** line 66 *)
Definition identM32 : list N :=
  [0x80000000; 0x40000000; 0x20000000; 0x10000000; 0x8000000; 0x4000000; 0x2000000; 0x1000000;
   0x800000; 0x400000; 0x200000; 0x100000; 0x80000; 0x40000; 0x20000; 0x10000; 0x8000; 0x4000;
   0x2000; 0x1000; 0x800; 0x400; 0x200; 0x100; 0x80; 0x40; 0x20; 0x10; 0x8; 0x4; 0x2; 0x1]%N.
(** line 67-68 *)
Definition identM64 : list N :=
  [0x8000000000000000; 0x4000000000000000; 0x2000000000000000; 0x1000000000000000;
   0x800000000000000; 0x400000000000000; 0x200000000000000; 0x100000000000000;
   0x80000000000000; 0x40000000000000; 0x20000000000000; 0x10000000000000; 0x8000000000000;
   0x4000000000000; 0x2000000000000; 0x1000000000000; 0x800000000000; 0x400000000000;
   0x200000000000; 0x100000000000; 0x80000000000; 0x40000000000; 0x20000000000; 0x10000000000;
   0x8000000000; 0x4000000000; 0x2000000000; 0x1000000000; 0x800000000; 0x400000000;
   0x200000000; 0x100000000; 0x80000000; 0x40000000; 0x20000000; 0x10000000; 0x8000000;
   0x4000000; 0x2000000; 0x1000000; 0x800000; 0x400000; 0x200000; 0x100000; 0x80000; 0x40000;
   0x20000; 0x10000; 0x8000; 0x4000; 0x2000; 0x1000; 0x800; 0x400; 0x200; 0x100; 0x80; 0x40;
   0x20; 0x10; 0x8; 0x4; 0x2; 0x1]%N.
Definition ident (w : width) : list N :=
  match w with W4 => identM4 | W8 => identM8 | W16 => identM16 | W32 => identM32
             | W64 | W128 | W256 => identM64 end.

(** if(getrandbit()) M[i][k] ^= ident[j] (e.g. lines 77, 182-183) *)
Definition flip_if (w : width) (i j k : nat) (ms : mat * N) : res (mat * N) :=
  let (m, st) := ms : mat * N in
  ' (b, st') <- randbit st ;;
  if b : bool then
    x <- mget m i k ;; y <- aget (ident w) j ;; m' <- mset m i k (N.lxor x y) ;; Ok (m', st')
  else Ok (m, st').
(** RandbitMatM4..M256: lines 70-80, 91-101, 112-122, 133-143, 154-164, 175-186, 197-210 *)
Definition RandbitMat (w : width) (m : mat) (st : N) : res (mat * N) :=
  for_up 0 (dim w) (fun i => for_up 0 (wb w) (fun j => for_up 0 (nw w) (fun k =>
    flip_if w i j k))) (m, st).

(** the while loop; [None]: still running after [fuel] rounds *)
Fixpoint lowmc_reject (w : width) (fuel : nat) (temp : mat) (st : N) : res (option (mat * N)) :=
  r <- isinvert w temp ;;
  if negb (N.eqb r 0) then Ok (Some (temp, st))
  else
    match fuel with
    | O => Ok None
    | S f => ' (temp', st') <- RandbitMat w temp st ;; lowmc_reject w f temp' st'
    end.
(** InvTMatM4..M256: lines 81-90, 102-111, 123-132, 144-153, 165-174, 187-196, 211-220.
    temp0 is the content of the local temp, which is never initialised: the bits are xored into
    whatever it holds.  (C++ makes already that xor undefined; the model describes an execution
    in which the memory has some fixed content.) *)
Definition InvT_lowmc (w : width) (fuel : nat) (temp0 m : mat) (st : N)
  : res (option (mat * N)) :=
  ' (temp, st1) <- RandbitMat w temp0 st ;;
  r <- lowmc_reject w fuel temp st1 ;;
  match r with
  | None => Ok None
  | Some (temp', st2) => m' <- copyM w temp' m ;; Ok (Some (m', st2))
  end.
