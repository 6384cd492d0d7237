(** Generated by tools/gen_props.py from Main10.v: statements of the properties.
    Every theorem is closed by [exact]; its assumptions are printed beneath it. *)
From Coq Require Import Arith NArith List Bool Lia.
From Verif Require Import Base Tables Model Spec LinAlg Mem Cons Elim Check ModelLowMC SpecLowMC LowMC LowMC2 LowMC3 Main10.
Import ListNotations.

(** C60: every call of getrandbit returns, after at most 80 rounds of its loop, whatever the
    80-bit state; it never leaves the state zero, which the first lines would take for the
    mark "not yet initialised" *)
Theorem C60_terminates : forall fuel st, (st < 2 ^ 80)%N -> 80 <= fuel ->
  exists b st', getrandbit fuel st = Some (b, st') /\ getrandbit 80 st = Some (b, st') /\
    (0 < st' < 2 ^ 80)%N.
Proof. exact C60_terminates_main. Qed.
Print Assumptions C60_terminates.

(** C60: from the start of the program the n-th call returns bit 240 + 2 p(n) + 1 of the Grain
    LFSR sequence started with all ones, where p(0) < p(1) < ... are all the numbers k of pairs
    (s(240+2k), s(240+2k+1)) whose first bit is 1 *)
Theorem C60_stream : forall s, grain s -> exists (p : nat -> nat) (st : nat -> N),
  p 0 < 80 /\ (forall n, p n < p (S n) <= p n + 80) /\
  (forall k, s (240 + 2 * k) = true <-> exists n, p n = k) /\
  st 0 = 0%N /\
  (forall n, getrandbit 80 (st n) = Some (s (240 + 2 * p n + 1), st (S n)) /\ st (S n) <> 0%N).
Proof. exact C60_stream_main. Qed.
Print Assumptions C60_stream.

(** the sequence exists; the bound 80 is sharp; the first call of the program *)
Example C60_ex : (exists s, grain s) /\
  getrandbit 79 0xe2a20230020b268088a5 = None /\
  (exists st', getrandbit 80 0xe2a20230020b268088a5 = Some (true, st')) /\
  (exists st', getrandbit 80 0 = Some (false, st') /\ st' <> 0%N /\ getrandbit 80 st' <> None).
Proof. exact C60_ex_main. Qed.

(** C61: RandbitMat adds to the bit in row i and column j the result of call number
    (i * wb + j mod wb) * nw + j / wb of getrandbit, and changes no other bit of the elements *)
Theorem C61_matrix : forall w m st, typedM w m -> (st < 2 ^ 80)%N ->
  exists m' st', RandbitMat w m st = Ok (m', st') /\ typedM w m' /\
  (exists b, nth_call (dim w * wb w * nw w - 1) st = Ok (b, st')) /\
  (forall i j, i < dim w -> j < dim w ->
     exists b s, nth_call ((i * wb w + j mod wb w) * nw w + j / wb w) st = Ok (b, s) /\
       mbit w m' i j = xorb (mbit w m i j) b) /\
  (forall i k p, i < dim w -> k < nw w -> wb w <= p ->
     N.testbit (word m' i k) (N.of_nat p) = N.testbit (word m i k) (N.of_nat p)).
Proof. exact C61_matrix_main. Qed.
Print Assumptions C61_matrix.

(** C61: InvTMat (widths 8 to 256: whatever the uninitialised local holds) returns the first
    invertible one among the matrices temp + r(0), temp + r(0) + r(1), ...; and invs then
    computes its inverse *)
Theorem C61_reject : forall w fuel t0 m v st, w <> W4 -> typedM w t0 -> typedM w m -> typedM w v ->
  (st < 2 ^ 80)%N ->
  exists r, InvT_lowmc w fuel t0 m st = Ok r /\
  match r with
  | Some (m', st') => exists k, k <= fuel /\ nth_mat w k t0 st = Ok (m', st') /\ wfM w m' /\
      invertible (dim w) (mbit w m') /\
      (forall q x y, q < k -> nth_mat w q t0 st = Ok (x, y) -> ~ invertible (dim w) (mbit w x)) /\
      exists v', invs w m' v = Ok v' /\ inverse_of (dim w) (mbit w m') (mbit w v')
  | None => forall q x y, q <= fuel -> nth_mat w q t0 st = Ok (x, y) ->
      ~ invertible (dim w) (mbit w x)
  end.
Proof. exact C61_reject_main. Qed.
Print Assumptions C61_reject.

(** the first 8-bit matrix of the program when the stack holds zeros *)
Example C61_ex : exists m' st', InvT_lowmc W8 20 (zeros W8) (zeros W8) 0 = Ok (Some (m', st')) /\
  m' <> mk W8 (id_word W8) /\ typedM W8 (zeros W8).
Proof. exact C61_ex_main. Qed.

(** C62: isinvertM4 on bytes whose upper halves are not zero: with L the lower and H the upper
    halves it returns 1 exactly if L is invertible and the last row of L^-1 H is zero *)
Theorem C62_isinvert : forall m, typedM W4 m -> exists r, isinvert W4 m = Ok r /\
  (r = 0%N \/ r = 1%N) /\
  (r = 1%N <-> exists B, inverse_of 4 (mbit W4 m) B /\ forall c, c < 4 -> fmul 4 B (hbit m) 3 c = false).
Proof. exact C62_isinvert_main. Qed.
Print Assumptions C62_isinvert.

(** C62: InvTMatM4 never returns when the upper halves of the uninitialised bytes are linearly
    independent *)
Theorem C62_stuck : forall fuel t0 m st, typedM W4 t0 -> typedM W4 m -> (st < 2 ^ 80)%N ->
  invertible 4 (hbit t0) -> InvT_lowmc W4 fuel t0 m st = Ok None.
Proof. exact C62_stuck_main. Qed.
Print Assumptions C62_stuck.

(** C62: when it returns, the lower halves of the result are an invertible matrix, the first
    one of the series that isinvertM4 accepts; the upper halves are those of the uninitialised
    bytes *)
Theorem C62_result : forall fuel t0 m st m' st', typedM W4 t0 -> typedM W4 m -> (st < 2 ^ 80)%N ->
  InvT_lowmc W4 fuel t0 m st = Ok (Some (m', st')) ->
  typedM W4 m' /\ invertible 4 (mbit W4 m') /\ feq 4 (hbit m') (hbit t0) /\
  exists k, k <= fuel /\ nth_mat W4 k t0 st = Ok (m', st') /\
    forall q x y, q < k -> nth_mat W4 q t0 st = Ok (x, y) -> isinvert W4 x = Ok 0%N.
Proof. exact C62_result_main. Qed.
Print Assumptions C62_result.

(** memory on which the program hangs, memory with garbage on which it does not, and clean
    memory *)
Example C62_ex :
  (let t0 := [[0x10]; [0x20]; [0x40]; [0x80]]%N in typedM W4 t0 /\ invertible 4 (hbit t0)) /\
  (exists m' st', InvT_lowmc W4 20 [[0x10]; [0]; [0]; [0]]%N (zeros W4) 0 = Ok (Some (m', st')) /\
     ~ wfM W4 m') /\
  (exists m' st', InvT_lowmc W4 20 (zeros W4) (zeros W4) 0 = Ok (Some (m', st'))).
Proof. exact C62_ex_main. Qed.
