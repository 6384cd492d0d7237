(** C118 to C121: Strassen products of M4RI; hexadecimal text. *)
From Coq Require Import Arith NArith ZArith String List Bool Lia.
From Verif Require Import Base Spec LinAlg ModelM4ri SpecM4ri M4ri1 M4riD M4ri8 ModelM4ri2 SpecM4ri2 M4ri9 M4ri14 Main19 ModelStrassen SpecStrassen Strassen1 Strassen4 ModelHex SpecHex Hex1.
Import ListNotations.

Lemma valid_or_null_okm : forall R C C0, valid_or_null R C C0 -> forall M, C0 = Some M -> okm R C M.
Proof. intros R C C0 H M E. apply okm_valid, H, E. Qed.

(** C118: mzd_mul(C, A, B, cutoff) is the product of A and B, for every cutoff and all dimensions
    with which cutting is possible, whatever C contains before and whether or not one of the matrices
    is a window. *)
Lemma C118_mul_main : forall R n C A B C0 cutoff wn kcache junk, valid R n A -> valid n C B -> valid_or_null R C C0 ->
  1 <= n -> small R n -> small n C -> small C n -> (N.of_nat cutoff < 2 ^ 29)%N ->
  cuttable cutoff R -> cuttable cutoff n -> cuttable cutoff C -> (forall b, words64 (junk b)) ->
  exists P, mzd_mul kcache junk wn C0 A B cutoff = Ok P /\ valid R C P /\ is_product R n C (bitat A) (bitat B) (bitat P).
Proof.
  intros R n C A B C0 cutoff wn kcache junk HA HB HC Hn S0 S1 S2 Hc K1 K2 K3 HJ. apply okm_valid in HA, HB.
  destruct (mul_top kcache junk (fun b => words64_w64 _ (HJ b)) wn R n C C0 A B cutoff HA HB (valid_or_null_okm _ _ _ HC) Hn S0 S1 S2 Hc K1 K2 K3)
    as (P & E & HP & EP).
  exists P. split; [exact E|]. split; [apply okm_valid; exact HP|exact EP].
Qed.
(** C118: mzd_mul(C, A, A, cutoff), the squaring. *)
Lemma C118_sqr_main : forall R A C0 cutoff wn kcache junk, valid R R A -> valid_or_null R R C0 ->
  1 <= R -> small R R -> (N.of_nat cutoff < 2 ^ 29)%N -> cuttable cutoff R -> (forall b, words64 (junk b)) ->
  exists P, mzd_sqr kcache junk wn C0 A cutoff = Ok P /\ valid R R P /\ is_product R R R (bitat A) (bitat A) (bitat P).
Proof.
  intros R A C0 cutoff wn kcache junk HA HC HR S0 Hc K HJ. apply okm_valid in HA.
  destruct (sqr_top kcache junk (fun b => words64_w64 _ (HJ b)) wn R C0 A cutoff HA (valid_or_null_okm _ _ _ HC) HR S0 Hc K) as (P & E & HP & EP).
  exists P. split; [exact E|]. split; [apply okm_valid; exact HP|exact EP].
Qed.
(** C118: the result does not depend on the cutoff, and is that of the cubic product. *)
Lemma C118_agree_main : forall R n C A B C0 C1 cutoff wn kcache junk junk', valid R n A -> valid n C B -> valid_or_null R C C0 -> valid R C C1 ->
  1 <= n -> 1 <= C -> small R n -> small n C -> small C n -> (N.of_nat cutoff < 2 ^ 29)%N ->
  cuttable cutoff R -> cuttable cutoff n -> cuttable cutoff C -> (forall b, words64 (junk b)) -> (forall b, words64 (junk' b)) ->
  exists P P', mzd_mul kcache junk wn C0 A B cutoff = Ok P /\ mzd_mul_naive junk' C1 A B = Ok P' /\ same R C (bitat P) (bitat P').
Proof.
  intros R n C A B C0 C1 cutoff wn kcache junk junk' HA HB HC HC1 Hn H1 S0 S1 S2 Hc K1 K2 K3 HJ HJ'.
  destruct (C118_mul_main R n C A B C0 cutoff wn kcache junk HA HB HC Hn S0 S1 S2 Hc K1 K2 K3 HJ) as (P & E & _ & Q).
  destruct (C88_mul_naive_main R n C A B C1 junk' HA HB HC1 Hn H1 S1 S2 HJ') as (P' & E' & _ & Q').
  exists P, P'. split; [exact E|]. split; [exact E'|]. intros i j Hi Hj. rewrite Q, Q' by assumption. reflexivity.
Qed.
(** Two 128 x 128 matrices with the cutoff 64, which are cut once *)
Definition shift128 (n : nat) : mzd := mkmzd 128 128 (map (fun i => let j := (i * 3 + n) mod 128 in
  if Nat.ltb j 64 then [(2 ^ N.of_nat j)%N; N.of_nat i] else [N.of_nat i; (2 ^ N.of_nat (j - 64))%N]) (seq 0 128)).
Definition row_of (r : res mzd) (i : nat) : option (list N) := match r with Ok P => nth_error (mrows P) i | UB => None end.
Example C118_ex_main : valid 128 128 (shift128 1) /\ valid 128 128 (shift128 2) /\ small 128 128 /\ cuttable 64 128 /\
  words64 (repeat 5%N 64) /\
  row_of (mzd_mul 8 (fun _ => repeat 5%N 64) true None (shift128 1) (shift128 2) 64) 3 = Some [4294967297; 46]%N.
Proof.
  split; [apply validb_ok; vm_compute; reflexivity|]. split; [apply validb_ok; vm_compute; reflexivity|].
  split; [vm_compute; discriminate|]. split; [right; right; right; apply Nat.le_refl|].
  split; [split; [reflexivity|]; intros w H; apply repeat_spec in H; subst; reflexivity|]. vm_compute. reflexivity.
Qed.

(** C119: mzd_addmul(C, A, B, cutoff) adds the product of A and B to C (to the zero matrix if C is
    NULL); an inner dimension that cannot be cut does no harm if A has less than 128 rows or B less
    than 128 columns. *)
Lemma C119_addmul_main : forall R n C A B C0 cutoff wn kcache junk, valid R n A -> valid n C B -> valid_or_null R C C0 ->
  small R n -> small n C -> small C n -> (N.of_nat cutoff < 2 ^ 29)%N ->
  cuttable cutoff n \/ R < 128 \/ C < 128 -> (forall b, words64 (junk b)) ->
  exists P, mzd_addmul kcache junk wn C0 A B cutoff = Ok P /\ valid R C P /\
    same R C (bitat P) (fadd (entry C0) (fmul n (bitat A) (bitat B))).
Proof.
  intros R n C A B C0 cutoff wn kcache junk HA HB HC S0 S1 S2 Hc K HJ. apply okm_valid in HA, HB.
  destruct (addmul_top kcache junk (fun b => words64_w64 _ (HJ b)) wn R n C C0 A B cutoff (okm_okd _ _ _ HA) HB (valid_or_null_okm _ _ _ HC) S0 S1 S2 Hc K)
    as (P & E & HP & EP).
  exists P. split; [exact E|]. split; [apply okm_valid; exact HP|]. intros i j Hi Hj. rewrite EP by assumption.
  unfold fadd, entry, before. destruct C0; reflexivity.
Qed.
(** C119: mzd_addmul(C, A, A, cutoff) adds the square of A. *)
Lemma C119_addsqr_main : forall R A C0 cutoff wn kcache junk, valid R R A -> valid_or_null R R C0 ->
  small R R -> (N.of_nat cutoff < 2 ^ 29)%N -> cuttable cutoff R -> (forall b, words64 (junk b)) ->
  exists P, mzd_addsqr kcache junk wn C0 A cutoff = Ok P /\ valid R R P /\
    same R R (bitat P) (fadd (entry C0) (fmul R (bitat A) (bitat A))).
Proof.
  intros R A C0 cutoff wn kcache junk HA HC S0 Hc K HJ. apply okm_valid in HA.
  destruct (addsqr_top kcache junk (fun b => words64_w64 _ (HJ b)) wn R C0 A cutoff HA (valid_or_null_okm _ _ _ HC) S0 Hc K) as (P & E & HP & EP).
  exists P. split; [exact E|]. split; [apply okm_valid; exact HP|]. intros i j Hi Hj. rewrite EP by assumption.
  unfold fadd, entry, before. destruct C0; reflexivity.
Qed.
Example C119_ex_main : valid_or_null 128 128 (Some (shift128 3)) /\ valid 128 128 (shift128 1) /\ cuttable 64 128 /\
  row_of (mzd_addmul 8 (fun _ => repeat 5%N 64) false (Some (shift128 3)) (shift128 1) (shift128 2) 64) 3 = Some [4294971393; 45]%N.
Proof.
  split; [intros M E; injection E as <-; apply validb_ok; vm_compute; reflexivity|].
  split; [apply validb_ok; vm_compute; reflexivity|]. split; [right; right; right; apply Nat.le_refl|]. vm_compute. reflexivity.
Qed.

(** C120: with a cutoff from 1 to 127 an inner dimension from 86 to 127 between matrices of at least
    128 rows and columns stops the program, whatever the matrices contain. *)
Lemma C120_inner_main : forall R n C A B C0 cutoff wn kcache junk, valid R n A -> valid n C B -> valid_or_null R C C0 ->
  small R n -> small n C -> 1 <= cutoff -> cutoff < 128 -> 128 <= R -> 128 <= C -> 86 <= n -> n <= 127 ->
  mzd_mul kcache junk wn C0 A B cutoff = UB.
Proof.
  intros R n C A B C0 cutoff wn kcache junk HA HB HC. apply okm_valid in HA, HB. intros.
  apply (mul_dies kcache junk wn R n C); try assumption. exact (valid_or_null_okm _ _ _ HC).
Qed.
(** C120: so does mzd_addmul: C119 covers all other cutoffs and dimensions. *)
Lemma C120_addmul_main : forall R n C A B C0 cutoff wn kcache junk, valid R n A -> valid n C B -> valid_or_null R C C0 ->
  small R n -> small n C -> ~ (cuttable cutoff n \/ R < 128 \/ C < 128) -> mzd_addmul kcache junk wn C0 A B cutoff = UB.
Proof.
  intros R n C A B C0 cutoff wn kcache junk HA HB HC S0 S1 H. apply okm_valid in HA, HB. unfold cuttable in H.
  apply (addmul_dies kcache junk wn R n C); try assumption; try lia. exact (valid_or_null_okm _ _ _ HC).
Qed.
(** C120: for mzd_mul so do 86 to 127 columns of B if the number of rows of A is no multiple of 128, in
    particular all square matrices of these sizes, and their squaring. *)
Lemma C120_columns_main : forall R n C A B C0 cutoff wn kcache junk, valid R n A -> valid n C B -> valid_or_null R C C0 ->
  small R n -> small n C -> 1 <= cutoff -> cutoff < 128 -> 86 <= R -> 86 <= n -> 86 <= C -> C <= 127 -> R mod 128 <> 0 ->
  mzd_mul kcache junk wn C0 A B cutoff = UB.
Proof.
  intros R n C A B C0 cutoff wn kcache junk HA HB HC. apply okm_valid in HA, HB. intros.
  apply (mul_dies2 kcache junk wn R n C); try assumption. exact (valid_or_null_okm _ _ _ HC).
Qed.
Lemma C120_square_main : forall R A C0 cutoff wn kcache junk, valid R R A -> valid_or_null R R C0 ->
  small R R -> 1 <= cutoff -> cutoff < 128 -> 86 <= R -> R <= 127 ->
  mzd_sqr kcache junk wn C0 A cutoff = UB /\ forall B, valid R R B -> mzd_mul kcache junk wn C0 A B cutoff = UB.
Proof.
  intros R A C0 cutoff wn kcache junk HA HC S0 H1 H2 H3 H4. split.
  - apply okm_valid in HA. apply (sqr_dies kcache junk wn R); try assumption. exact (valid_or_null_okm _ _ _ HC).
  - intros B HB. apply (C120_columns_main R R R A B); try assumption. rewrite Nat.mod_small; lia.
Qed.
Example C120_ex_main : valid 128 100 (mzd_init 128 100) /\ valid 100 128 (mzd_init 100 128) /\ small 128 100 /\ small 100 128 /\
  valid 100 100 (mzd_init 100 100) /\ small 100 100.
Proof.
  split; [apply validb_ok; vm_compute; reflexivity|]. split; [apply validb_ok; vm_compute; reflexivity|].
  split; [vm_compute; discriminate|]. split; [vm_compute; discriminate|]. split; [apply validb_ok; vm_compute; reflexivity|]. vm_compute; discriminate.
Qed.
(** C120: mzd_mul is not the product for every cutoff; neither is mzd_addmul. *)
Lemma C120_all_refuted_main : exists R n C A B cutoff kcache junk,
  valid R n A /\ valid n C B /\ 1 <= n /\ small R n /\ small n C /\ small C n /\ (N.of_nat cutoff < 2 ^ 29)%N /\ (forall b, words64 (junk b)) /\
  mzd_mul kcache junk false None A B cutoff = UB /\ mzd_addmul kcache junk false None A B cutoff = UB.
Proof.
  exists 128, 86, 128, (mzd_init 128 86), (mzd_init 86 128), 64, 8, (fun _ => repeat 0%N 64).
  split; [apply validb_ok; vm_compute; reflexivity|]. split; [apply validb_ok; vm_compute; reflexivity|].
  split; [lia|]. split; [vm_compute; discriminate|]. split; [vm_compute; discriminate|]. split; [vm_compute; discriminate|].
  split; [reflexivity|]. split; [|split; vm_compute; reflexivity].
  intros b. split; [reflexivity|]. intros w H. apply repeat_spec in H. subst. reflexivity.
Qed.

(** C121: asciiStr2hex reads what printstate writes. *)
Lemma C121_round_trip_main : forall st out, length st = 16 -> (forall x, In x st -> (x < 256)%N) -> length out = 16 ->
  exists txt, printstate st = Ok (txt ++ [10%N]) /\ length txt = 32 /\ asciiStr2hex txt out 32 = Ok st.
Proof. exact round_trip. Qed.
(** C121: asciiStr2hex reads every text of pairs of digits, upper or lower case; the rest of the
    target is left as it is. *)
Lemma C121_parse_main : forall s bs out extra, hextext s bs -> length out = length bs ->
  asciiStr2hex s (out ++ extra) (length s) = Ok (bs ++ extra).
Proof. exact str2hex_ok. Qed.
(** C121: ascii2hex gives v exactly for the characters that write the digit v; for all others it
    returns a variable that was never set. *)
Lemma C121_digit_main : forall c, (c < 256)%N ->
  (forall v, ascii2hex c = Ok v <-> writes c v) /\ ((forall v, ~ writes c v) -> ascii2hex c = UB).
Proof.
  intros c Hc. split; [intros v; apply ascii2hex_iff; exact Hc|]. intros H.
  destruct (ascii2hex c) as [v|] eqn:E; [|reflexivity]. exfalso. apply (H v). apply ascii2hex_iff; assumption.
Qed.
Example C121_ex_main : printstate (map N.of_nat (seq 170 16)) = Ok (codes "AAABACADAEAFB0B1B2B3B4B5B6B7B8B9"%string ++ [10%N]) /\
  hextext (codes "0fA7"%string) [15; 167]%N /\ asciiStr2hex (codes "0fA7"%string) [1; 2; 3]%N 4 = Ok [15; 167; 3]%N /\
  ascii2hex 71 = UB /\ asciiStr2hex (codes "0fA"%string) [1; 2; 3]%N 3 = UB.
Proof.
  split; [vm_compute; reflexivity|]. split.
  { apply (hex_cons 48 102 0 15 [65; 55]%N [167]%N); [split; [reflexivity|left; reflexivity]|split; [reflexivity|right; reflexivity]|].
    apply (hex_cons 65 55 10 7 [] []); [split; [reflexivity|left; reflexivity]|split; [reflexivity|left; reflexivity]|constructor]. }
  split; [vm_compute; reflexivity|]. split; vm_compute; reflexivity.
Qed.
