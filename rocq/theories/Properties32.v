(** Generated by tools/gen_props.py from Main32.v: statements of the properties.
    Every theorem is closed by [exact]; its assumptions are printed beneath it. *)
From Coq Require Import Arith NArith ZArith List Bool Lia.
From Verif Require Import Base Spec LinAlg ModelM4ri SpecM4ri M4ri1 M4riD M4ri8 ModelM4ri2 SpecM4ri2 ModelStrassen SpecStrassen Strassen1 Strassen3 Strassen4 Main19 ModelTri SpecTri Tri3 Main27 Main28 ModelPle ModelTriR TriR1 TriR2 TriR6 TriR7 Main31 Main32.
Import ListNotations.

(** C137: mzd_trtri_upper_russian(A, 0) replaces an upper triangular matrix with ones on the diagonal by
    its inverse, whatever is read behind a table; nothing is read there if the rows have an odd number of
    words. *)
Theorem C137_trtri_russian : forall n A l3 beyond, valid n n A -> same n n (bitat A) (unit_upper (bitat A)) ->
  (2 ^ 16 <= l3)%N -> beyond <> None \/ Nat.odd ((n + 63) / 64) = true ->
  exists X, trtri_upper_russian l3 beyond A = Ok X /\ valid n n X /\ same n n (fmul n (bitat X) (bitat A)) fid /\
    same n n (bitat X) (unit_upper (bitat X)).
Proof. exact C137_trtri_russian_main. Qed.
Print Assumptions C137_trtri_russian.

Example C137_ex : valid 70 70 bidiag70 /\ same 70 70 (bitat bidiag70) (unit_upper (bitat bidiag70)) /\
  valid 4 4 tri4 /\ same 4 4 (bitat tri4) (unit_upper (bitat tri4)) /\ Nat.odd ((4 + 63) / 64) = true /\
  trtri_upper_russian (2 ^ 18) None tri4 = Ok (mkmzd 4 4 [[7]; [14]; [4]; [8]]%N).
Proof. exact C137_ex_main. Qed.

(** C138: mzd_trtri_upper(U) likewise, for all sizes whose square is an int. *)
Theorem C138_trtri : forall n A l3 v kcache junk, valid n n A -> same n n (bitat A) (unit_upper (bitat A)) ->
  (2 ^ 16 <= l3)%N -> (N.of_nat n * N.of_nat n < 2 ^ 31)%N -> small n n -> (forall b, words64 (junk b)) ->
  exists X, mzd_trtri_upper l3 (Some v) kcache junk A = Ok X /\ valid n n X /\ same n n (fmul n (bitat X) (bitat A)) fid /\
    same n n (bitat X) (unit_upper (bitat X)).
Proof. exact C138_trtri_main. Qed.
Print Assumptions C138_trtri.

Example C138_ex : (N.of_nat 70 * N.of_nat 70 < 2 ^ 31)%N /\ small 70 70 /\ words64 (repeat 5%N 64) /\
  mzd_trtri_upper (2 ^ 18) (Some 7%N) 3 (fun _ => repeat 5%N 64) tri4 = Ok (mkmzd 4 4 [[7]; [14]; [4]; [8]]%N).
Proof. exact C138_ex_main. Qed.

(** C139: mzd_trsm_upper_right(U, B, cutoff) replaces B by the X with X U = B, U the unit upper triangular
    matrix above the diagonal of U; with more than 64 columns the ones have to be stored on it. *)
Theorem C139_upper_right : forall R C U B cutoff l3 v kcache junk, valid C C U -> valid R C B -> small R C -> small C C ->
  (2 ^ 16 <= l3)%N -> (N.of_nat cutoff < 2 ^ 29)%N -> cutoff = 0 \/ 128 <= cutoff \/ R < 128 -> (forall b, words64 (junk b)) ->
  (64 < C -> forall i, i < C -> bitat U i i = true) ->
  exists X, mzd_trsm_upper_right kcache junk (mzd_trtri_upper l3 (Some v) kcache junk) U B cutoff = Ok X /\ valid R C X /\
    same R C (fmul C (bitat X) (unit_upper (bitat U))) (bitat B).
Proof. exact C139_upper_right_main. Qed.
Print Assumptions C139_upper_right.

(** 70 columns, so that the inverse is used *)
Example C139_ex : valid 70 70 bidiag70 /\ valid 67 70 lhs70 /\ small 67 70 /\ small 70 70 /\ words64 (repeat 5%N 64) /\
  (forall i, i < 70 -> bitat bidiag70 i i = true) /\
  row_of (mzd_trsm_upper_right 3 (fun _ => repeat 5%N 64) (mzd_trtri_upper (2 ^ 18) (Some 9%N) 3 (fun _ => repeat 5%N 64)) bidiag70 lhs70 0) 5 =
    Some [28; 3]%N.
Proof. exact C139_ex_main. Qed.

(** Without the ones the claim is false: up to 64 columns the diagonal is not read, with 70 it is *)
Theorem C139_diagonal_refuted : exists U B X, valid 70 70 U /\ valid 1 70 B /\
  mzd_trsm_upper_right 3 (fun _ => repeat 5%N 64) (mzd_trtri_upper (2 ^ 18) (Some 9%N) 3 (fun _ => repeat 5%N 64)) U B 0 = Ok X /\
  ~ same 1 70 (fmul 70 (bitat X) (unit_upper (bitat U))) (bitat B).
Proof. exact C139_diagonal_refuted_main. Qed.
Print Assumptions C139_diagonal_refuted.
