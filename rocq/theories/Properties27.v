(** Generated by tools/gen_props.py from Main27.v: statements of the properties.
    Every theorem is closed by [exact]; its assumptions are printed beneath it. *)
From Coq Require Import Arith NArith ZArith String List Bool Lia.
From Verif Require Import Base Spec LinAlg ModelM4ri SpecM4ri M4ri1 M4riD M4ri8 ModelM4ri2 SpecM4ri2 M4ri9 M4ri14 Main19 ModelStrassen SpecStrassen Strassen1 Strassen4 ModelHex SpecHex Hex1 Main27.
Import ListNotations.

(** C118: mzd_mul(C, A, B, cutoff) is the product of A and B, for every cutoff and all dimensions
    with which cutting is possible, whatever C contains before and whether or not one of the matrices
    is a window. *)
Theorem C118_mul : forall R n C A B C0 cutoff wn kcache junk, valid R n A -> valid n C B -> valid_or_null R C C0 ->
  1 <= n -> small R n -> small n C -> small C n -> (N.of_nat cutoff < 2 ^ 29)%N ->
  cuttable cutoff R -> cuttable cutoff n -> cuttable cutoff C -> (forall b, words64 (junk b)) ->
  exists P, mzd_mul kcache junk wn C0 A B cutoff = Ok P /\ valid R C P /\ is_product R n C (bitat A) (bitat B) (bitat P).
Proof. exact C118_mul_main. Qed.
Print Assumptions C118_mul.

(** C118: mzd_mul(C, A, A, cutoff), the squaring. *)
Theorem C118_sqr : forall R A C0 cutoff wn kcache junk, valid R R A -> valid_or_null R R C0 ->
  1 <= R -> small R R -> (N.of_nat cutoff < 2 ^ 29)%N -> cuttable cutoff R -> (forall b, words64 (junk b)) ->
  exists P, mzd_sqr kcache junk wn C0 A cutoff = Ok P /\ valid R R P /\ is_product R R R (bitat A) (bitat A) (bitat P).
Proof. exact C118_sqr_main. Qed.
Print Assumptions C118_sqr.

(** C118: the result does not depend on the cutoff, and is that of the cubic product. *)
Theorem C118_agree : forall R n C A B C0 C1 cutoff wn kcache junk junk', valid R n A -> valid n C B -> valid_or_null R C C0 -> valid R C C1 ->
  1 <= n -> 1 <= C -> small R n -> small n C -> small C n -> (N.of_nat cutoff < 2 ^ 29)%N ->
  cuttable cutoff R -> cuttable cutoff n -> cuttable cutoff C -> (forall b, words64 (junk b)) -> (forall b, words64 (junk' b)) ->
  exists P P', mzd_mul kcache junk wn C0 A B cutoff = Ok P /\ mzd_mul_naive junk' C1 A B = Ok P' /\ same R C (bitat P) (bitat P').
Proof. exact C118_agree_main. Qed.
Print Assumptions C118_agree.

Example C118_ex : valid 128 128 (shift128 1) /\ valid 128 128 (shift128 2) /\ small 128 128 /\ cuttable 64 128 /\
  words64 (repeat 5%N 64) /\
  row_of (mzd_mul 8 (fun _ => repeat 5%N 64) true None (shift128 1) (shift128 2) 64) 3 = Some [4294967297; 46]%N.
Proof. exact C118_ex_main. Qed.

(** C119: mzd_addmul(C, A, B, cutoff) adds the product of A and B to C (to the zero matrix if C is
    NULL); an inner dimension that cannot be cut does no harm if A has less than 128 rows or B less
    than 128 columns. *)
Theorem C119_addmul : forall R n C A B C0 cutoff wn kcache junk, valid R n A -> valid n C B -> valid_or_null R C C0 ->
  small R n -> small n C -> small C n -> (N.of_nat cutoff < 2 ^ 29)%N ->
  cuttable cutoff n \/ R < 128 \/ C < 128 -> (forall b, words64 (junk b)) ->
  exists P, mzd_addmul kcache junk wn C0 A B cutoff = Ok P /\ valid R C P /\
    same R C (bitat P) (fadd (entry C0) (fmul n (bitat A) (bitat B))).
Proof. exact C119_addmul_main. Qed.
Print Assumptions C119_addmul.

(** C119: mzd_addmul(C, A, A, cutoff) adds the square of A. *)
Theorem C119_addsqr : forall R A C0 cutoff wn kcache junk, valid R R A -> valid_or_null R R C0 ->
  small R R -> (N.of_nat cutoff < 2 ^ 29)%N -> cuttable cutoff R -> (forall b, words64 (junk b)) ->
  exists P, mzd_addsqr kcache junk wn C0 A cutoff = Ok P /\ valid R R P /\
    same R R (bitat P) (fadd (entry C0) (fmul R (bitat A) (bitat A))).
Proof. exact C119_addsqr_main. Qed.
Print Assumptions C119_addsqr.

Example C119_ex : valid_or_null 128 128 (Some (shift128 3)) /\ valid 128 128 (shift128 1) /\ cuttable 64 128 /\
  row_of (mzd_addmul 8 (fun _ => repeat 5%N 64) false (Some (shift128 3)) (shift128 1) (shift128 2) 64) 3 = Some [4294971393; 45]%N.
Proof. exact C119_ex_main. Qed.

(** C120: with a cutoff from 1 to 127 an inner dimension from 86 to 127 between matrices of at least
    128 rows and columns stops the program, whatever the matrices contain. *)
Theorem C120_inner : forall R n C A B C0 cutoff wn kcache junk, valid R n A -> valid n C B -> valid_or_null R C C0 ->
  small R n -> small n C -> 1 <= cutoff -> cutoff < 128 -> 128 <= R -> 128 <= C -> 86 <= n -> n <= 127 ->
  mzd_mul kcache junk wn C0 A B cutoff = UB.
Proof. exact C120_inner_main. Qed.
Print Assumptions C120_inner.

(** C120: so does mzd_addmul: C119 covers all other cutoffs and dimensions. *)
Theorem C120_addmul : forall R n C A B C0 cutoff wn kcache junk, valid R n A -> valid n C B -> valid_or_null R C C0 ->
  small R n -> small n C -> ~ (cuttable cutoff n \/ R < 128 \/ C < 128) -> mzd_addmul kcache junk wn C0 A B cutoff = UB.
Proof. exact C120_addmul_main. Qed.
Print Assumptions C120_addmul.

(** C120: for mzd_mul so do 86 to 127 columns of B if the number of rows of A is no multiple of 128, in
    particular all square matrices of these sizes, and their squaring. *)
Theorem C120_columns : forall R n C A B C0 cutoff wn kcache junk, valid R n A -> valid n C B -> valid_or_null R C C0 ->
  small R n -> small n C -> 1 <= cutoff -> cutoff < 128 -> 86 <= R -> 86 <= n -> 86 <= C -> C <= 127 -> R mod 128 <> 0 ->
  mzd_mul kcache junk wn C0 A B cutoff = UB.
Proof. exact C120_columns_main. Qed.
Print Assumptions C120_columns.

Theorem C120_square : forall R A C0 cutoff wn kcache junk, valid R R A -> valid_or_null R R C0 ->
  small R R -> 1 <= cutoff -> cutoff < 128 -> 86 <= R -> R <= 127 ->
  mzd_sqr kcache junk wn C0 A cutoff = UB /\ forall B, valid R R B -> mzd_mul kcache junk wn C0 A B cutoff = UB.
Proof. exact C120_square_main. Qed.
Print Assumptions C120_square.

Example C120_ex : valid 128 100 (mzd_init 128 100) /\ valid 100 128 (mzd_init 100 128) /\ small 128 100 /\ small 100 128 /\
  valid 100 100 (mzd_init 100 100) /\ small 100 100.
Proof. exact C120_ex_main. Qed.

(** C120: mzd_mul is not the product for every cutoff; neither is mzd_addmul. *)
Theorem C120_all_refuted : exists R n C A B cutoff kcache junk,
  valid R n A /\ valid n C B /\ 1 <= n /\ small R n /\ small n C /\ small C n /\ (N.of_nat cutoff < 2 ^ 29)%N /\ (forall b, words64 (junk b)) /\
  mzd_mul kcache junk false None A B cutoff = UB /\ mzd_addmul kcache junk false None A B cutoff = UB.
Proof. exact C120_all_refuted_main. Qed.
Print Assumptions C120_all_refuted.

(** C121: asciiStr2hex reads what printstate writes. *)
Theorem C121_round_trip : forall st out, length st = 16 -> (forall x, In x st -> (x < 256)%N) -> length out = 16 ->
  exists txt, printstate st = Ok (txt ++ [10%N]) /\ length txt = 32 /\ asciiStr2hex txt out 32 = Ok st.
Proof. exact C121_round_trip_main. Qed.
Print Assumptions C121_round_trip.

(** C121: asciiStr2hex reads every text of pairs of digits, upper or lower case; the rest of the
    target is left as it is. *)
Theorem C121_parse : forall s bs out extra, hextext s bs -> length out = length bs ->
  asciiStr2hex s (out ++ extra) (length s) = Ok (bs ++ extra).
Proof. exact C121_parse_main. Qed.
Print Assumptions C121_parse.

(** C121: ascii2hex gives v exactly for the characters that write the digit v; for all others it
    returns a variable that was never set. *)
Theorem C121_digit : forall c, (c < 256)%N ->
  (forall v, ascii2hex c = Ok v <-> writes c v) /\ ((forall v, ~ writes c v) -> ascii2hex c = UB).
Proof. exact C121_digit_main. Qed.
Print Assumptions C121_digit.

Example C121_ex : printstate (map N.of_nat (seq 170 16)) = Ok (codes "AAABACADAEAFB0B1B2B3B4B5B6B7B8B9"%string ++ [10%N]) /\
  hextext (codes "0fA7"%string) [15; 167]%N /\ asciiStr2hex (codes "0fA7"%string) [1; 2; 3]%N 4 = Ok [15; 167; 3]%N /\
  ascii2hex 71 = UB /\ asciiStr2hex (codes "0fA"%string) [1; 2; 3]%N 3 = UB.
Proof. exact C121_ex_main. Qed.
