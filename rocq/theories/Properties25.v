(** Generated by tools/gen_props.py from Main25.v: statements of the properties.
    Every theorem is closed by [exact]; its assumptions are printed beneath it. *)
From Coq Require Import Arith ZArith QArith Qcanon List Bool Lia.
From Verif Require Import Base ModelSM4 WBSM4 SpecQ ModelInv Lap Inv0 Inv4 Inv7 Inv23 Inv6 Inv5 InvGf2 InvEx Main25.
Import ListNotations.
Open Scope nat_scope.

(** C108: github4, Gauss elimination of the augmented matrix.  If no division by zero happens the left half
    ends as the identity and the right half is the inverse of what the left half was, on both sides. *)
Theorem C108_inverse : forall n a a1 a2, dims2 n (2 * n) a ->
  g4_augment n a = Ok a1 -> g4_run n a1 = Ok a2 ->
  dims2 n (2 * n) a2 /\ qeq n (ent a2) qid /\ qinverse n (ent a) (fun i j => ent a2 i (n + j)).
Proof. exact C108_inverse_main. Qed.
Print Assumptions C108_inverse.

(** a singular matrix always ends in a division by zero *)
Theorem C108_singular : forall n a, dims2 n (2 * n) a -> ~ qinvertible n (ent a) ->
  exists a1, g4_augment n a = Ok a1 /\ g4_run n a1 = UB.
Proof. exact C108_singular_main. Qed.
Print Assumptions C108_singular.

(** running it again on the result, as the benchmark does, changes nothing: only the first of the
    repeated runs inverts anything *)
Theorem C108_again : forall n a a1 a2, dims2 n (2 * n) a ->
  g4_augment n a = Ok a1 -> g4_run n a1 = Ok a2 -> g4_run n a2 = Ok a2.
Proof. exact C108_again_main. Qed.
Print Assumptions C108_again.

(** findPivo compares without absolute values, so there are invertible matrices that are not inverted *)
Theorem C108_pivot_refuted : exists n a, dims2 n (2 * n) a /\ qinvertible n (ent a) /\
  exists a1, g4_augment n a = Ok a1 /\ g4_run n a1 = UB.
Proof. exact C108_pivot_refuted_main. Qed.
Print Assumptions C108_pivot_refuted.

(** ... among them matrices of zeros and ones *)
Theorem C108_bits_refuted : exists n l, sq n l /\ (forall r, In r l -> Forall (fun x => x = 0%Z \/ x = 1%Z) r) /\
  qinvertible n (qrows l) /\ exists a1, g4_augment n (aug n l) = Ok a1 /\ g4_run n a1 = UB.
Proof. exact C108_bits_refuted_main. Qed.
Print Assumptions C108_bits_refuted.

Example C108_ex : dims2 8 16 (aug 8 a8) /\ qinvertible 8 (qrows a8) /\
  exists a1 a2, g4_augment 8 (aug 8 a8) = Ok a1 /\ g4_run 8 a1 = Ok a2.
Proof. exact C108_ex_main. Qed.

(** C109: github7, elimination with a pivot from the whole remaining square.  If no division by zero happens
    the result is the inverse on both sides, and the matrix passed has become the identity. *)
Theorem C109_inverse : forall n m m' r', dims2 n n m -> g7_reverse n m = Ok (m', r') ->
  dims2 n n m' /\ dims2 n n r' /\ qeq n (ent m') qid /\ qinverse n (ent m) (ent r').
Proof. exact C109_inverse_main. Qed.
Print Assumptions C109_inverse.

Theorem C109_singular : forall n m, dims2 n n m -> ~ qinvertible n (ent m) -> g7_reverse n m = UB.
Proof. exact C109_singular_main. Qed.
Print Assumptions C109_singular.

(** the caller's matrix is destroyed, so from the second of the benchmark's calls on the result is the identity *)
Theorem C109_repeat : forall k n m m' r', dims2 n n m -> g7_repeat (S (S k)) n m = Ok (m', r') -> qeq n (ent r') qid.
Proof. exact C109_repeat_main. Qed.
Print Assumptions C109_repeat.

(** columns are "swapped" by swapping rows: an invertible matrix that is not inverted *)
Theorem C109_columns_refuted : exists n m, dims2 n n m /\ qinvertible n (ent m) /\ g7_reverse n m = UB.
Proof. exact C109_columns_refuted_main. Qed.
Print Assumptions C109_columns_refuted.

(** pivots are compared after truncation to int: without any column swap *)
Theorem C109_truncation_refuted : exists n m, dims2 n n m /\ qinvertible n (ent m) /\ g7_reverse n m = UB /\
  (forall i j, i < n -> j < n -> q_trunc (ent m i j) = 0%Z).
Proof. exact C109_truncation_refuted_main. Qed.
Print Assumptions C109_truncation_refuted.

(** the 32 by 32 matrix of the benchmark itself is invertible, and the function divides by zero on it *)
Theorem C109_benchmark_refuted : exists n m, n = 32 /\ m = rm a32 /\ dims2 n n m /\ qinvertible n (ent m) /\ g7_reverse n m = UB.
Proof. exact C109_benchmark_refuted_main. Qed.
Print Assumptions C109_benchmark_refuted.

Example C109_ex : dims2 3 3 (rm [[5; 1; 0]; [1; 4; 1]; [2; 0; 3]]%Z) /\
  exists m' r', g7_reverse 3 (rm [[5; 1; 0]; [1; 4; 1]; [2; 0; 3]]%Z) = Ok (m', r') /\ ent r' 0 0 = Q2Qc (12 # 59).
Proof. exact C109_ex_main. Qed.

(** C110: github2, cofactors.  For 2 <= n <= 100: defined for every matrix; a singular one leaves the result
    unwritten, any other gives its two-sided inverse. *)
Theorem C110_inverse : forall n a A, 2 <= n <= 100 -> holds 100 100 n a A ->
  exists d, g2_run n a = Ok d /\
    (~ qinvertible n A -> d = fresh 100 100) /\
    (qinvertible n A -> exists B, holds 100 100 n d B /\ qinverse n A B).
Proof. exact C110_inverse_main. Qed.
Print Assumptions C110_inverse.

Theorem C110_det : forall n a A, 1 <= n <= 100 -> holds 100 100 n a A -> g2_det n a = Ok (qdet n A).
Proof. exact C110_det_main. Qed.
Print Assumptions C110_det.

(** a 1 by 1 matrix gives 1, whatever its entry *)
Theorem C110_one : forall a A, holds 100 100 1 a A -> A 0 0 <> 0%Qc ->
  exists d, g2_run 1 a = Ok d /\ at2 None d 0 0 = Some 1%Qc.
Proof. exact C110_one_main. Qed.
Print Assumptions C110_one.

Theorem C110_one_refuted : exists a A d, holds 100 100 1 a A /\ qinvertible 1 A /\ g2_run 1 a = Ok d /\
  forall B, holds 100 100 1 d B -> ~ qinverse 1 A B.
Proof. exact C110_one_refuted_main. Qed.
Print Assumptions C110_one_refuted.

Example C110_ex : holds 100 100 8 (pad 100 a8) (qrows a8) /\ qinvertible 8 (qrows a8).
Proof. exact C110_ex_main. Qed.

(** C111: github3, cofactors in allocated matrices of any size from 2 *)
Theorem C111_inverse : forall n X A, 2 <= n -> mholds n X A ->
  exists o leaked, g3_inver X = Ok (o, leaked) /\
    (~ qinvertible n A -> o = None /\ leaked = 0) /\
    (qinvertible n A -> leaked = n * n - 1 /\ exists t B, o = Some t /\ holds n n n t B /\ qinverse n A B).
Proof. exact C111_inverse_main. Qed.
Print Assumptions C111_inverse.

Theorem C111_product : forall X Y A B p q r, mn X = p -> mm X = q -> mn Y = q -> mm Y = r ->
  dims2 p q (mM X) -> dims2 q r (mM Y) ->
  (forall i k, i < p -> k < q -> at2 None (mM X) i k = Some (A i k)) ->
  (forall k j, k < q -> j < r -> at2 None (mM Y) k j = Some (B k j)) ->
  exists t, g3_mulmat X Y = Ok (Some (mkM p r t)) /\ dims2 p r t /\
    forall i j, i < p -> j < r -> at2 None t i j = Some (qmul q A B i j).
Proof. exact C111_product_main. Qed.
Print Assumptions C111_product.

Theorem C111_mismatch : forall X Y, mm X <> mn Y -> g3_mulmat X Y = Ok None.
Proof. exact C111_mismatch_main. Qed.
Print Assumptions C111_mismatch.

(** a 1 by 1 matrix gives 0 *)
Theorem C111_one_refuted : exists X A t l, mholds 1 X A /\ qinvertible 1 A /\ g3_inver X = Ok (Some t, l) /\
  at2 None t 0 0 = Some 0%Qc.
Proof. exact C111_one_refuted_main. Qed.
Print Assumptions C111_one_refuted.

Example C111_ex : mholds 8 (mkM 8 8 (pad 8 a8)) (qrows a8) /\ qinvertible 8 (qrows a8).
Proof. exact C111_ex_main. Qed.

(** C112: github6, cofactors of int matrices in flat arrays, order from 2.  A result is the two-sided
    inverse, and (order + 1)! arrays have not been freed; entries 0 and +-1 up to order 12 cannot
    overflow, so then there is a result for every invertible matrix. *)
Theorem C112_inverse : forall n a A inp t l, 2 <= n -> zholds (length a) n a A -> length inp = n * n ->
  g6_cofactor a n inp = Ok (t, l) ->
  l = nfact (S n) /\ exists B, fholds n t B /\ qinverse n (qz A) B.
Proof. exact C112_inverse_main. Qed.
Print Assumptions C112_inverse.

Theorem C112_total : forall n a A inp, 2 <= n <= 12 -> zholds (length a) n a A -> length inp = n * n ->
  (forall i j, i < n -> j < n -> (-1 <= A i j <= 1)%Z) -> qinvertible n (qz A) ->
  exists t, g6_cofactor a n inp = Ok (t, nfact (S n)).
Proof. exact C112_total_main. Qed.
Print Assumptions C112_total.

(** a singular matrix ends in a division by zero, the value is never checked *)
Theorem C112_singular : forall n a A inp, 2 <= n -> zholds (length a) n a A -> length inp = n * n ->
  ~ qinvertible n (qz A) -> g6_cofactor a n inp = UB.
Proof. exact C112_singular_main. Qed.
Print Assumptions C112_singular.

(** one call of the benchmark leaves 362880 arrays allocated *)
Theorem C112_benchmark : forall inp, length inp = 64 ->
  exists t B, g6_cofactor (flat a8) 8 inp = Ok (t, 362880%N) /\ fholds 8 t B /\ qinverse 8 (qrows a8) B.
Proof. exact C112_benchmark_main. Qed.
Print Assumptions C112_benchmark.

Theorem C112_one_refuted : exists a A inp t l, zholds (length a) 1 a A /\ qinvertible 1 (qz A) /\ length inp = 1 /\
  g6_cofactor a 1 inp = Ok (t, l) /\ nth 0 t None = Some 0%Qc.
Proof. exact C112_one_refuted_main. Qed.
Print Assumptions C112_one_refuted.

(** C113: github5, the generator.  If the memory of tempArray is thought of as holding some numbers, a call
    is defined for every n >= 2, without int overflow, and gives entries within +-65535. *)
Theorem C113_range : forall s n t, rands s -> 2 <= n -> full n t ->
  exists a, g5_get s n (g5_identity n) t = Ok a /\ dims2 n n a /\
    (forall i j, i < n -> j < n -> (Z.abs (zent a i j) <= 65535)%Z) /\
    (forall i, i < n -> zent a i (n - 1) = if Nat.eqb i (n - 1) then 1%Z else 0%Z).
Proof. exact C113_range_main. Qed.
Print Assumptions C113_range.

(** two by two the result is invertible *)
Theorem C113_two : forall s t, rands s -> full 2 t ->
  exists a, g5_get s 2 (g5_identity 2) t = Ok a /\ qinvertible 2 (qz (zent a)).
Proof. exact C113_two_main. Qed.
Print Assumptions C113_two.

(** three by three it need not be *)
Theorem C113_invertible_refuted : exists s n t a, rands s /\ 2 <= n /\ full n t /\
  g5_get s n (g5_identity n) t = Ok a /\ ~ qinvertible n (qz (zent a)).
Proof. exact C113_invertible_refuted_main. Qed.
Print Assumptions C113_invertible_refuted.

(** as the C standard has it, the first comparison reads memory that has not been written *)
Theorem C113_uninitialised : forall s n, rands s -> 2 <= n -> (Z.rem (s 0%nat) 1000 <> 0)%Z ->
  g5_get s n (g5_identity n) (repeat None n) = UB.
Proof. exact C113_uninitialised_main. Qed.
Print Assumptions C113_uninitialised.

(** one by one: a division by zero *)
Theorem C113_one : forall s t, rands s -> (Z.rem (s 0%nat) 1000 <> 0)%Z -> g5_get s 1 (g5_identity 1) t = UB.
Proof. exact C113_one_main. Qed.
Print Assumptions C113_one.

Example C113_ex : rands (fun _ => 3%Z) /\ full 2 [Some 7%Z; Some 9%Z] /\
  g5_get (fun _ => 3%Z) 2 (g5_identity 2) [Some 7%Z; Some 9%Z] = Ok [[1; 0]; [-21; 1]]%Z.
Proof. exact C113_ex_main. Qed.
