(** Generated by tools/gen_props.py from Main31.v: statements of the properties.
    Every theorem is closed by [exact]; its assumptions are printed beneath it. *)
From Coq Require Import Arith NArith ZArith List Bool Lia.
From Verif Require Import Base Spec LinAlg ModelM4ri SpecM4ri M4ri1 M4riD M4ri8 ModelM4ri2 SpecM4ri2 ModelStrassen SpecStrassen Strassen1 Strassen4 Main19 ModelTri SpecTri Tri3 Main27 Main28 ModelPle ModelTriR TriR1 TriR2 Main31.
Import ListNotations.

(** C134: mzd_trsm_lower_right(L, B, cutoff) replaces B by the X with X L = B, L the unit lower triangular
    matrix below the diagonal of L. *)
Theorem C134_lower_right : forall R C L B cutoff kcache junk, readable C C L -> valid R C B -> small R C -> small C C ->
  (N.of_nat cutoff < 2 ^ 29)%N -> cutoff = 0 \/ 128 <= cutoff \/ R < 128 -> (forall b, words64 (junk b)) ->
  exists X, mzd_trsm_lower_right kcache junk L B cutoff = Ok X /\ valid R C X /\
    same R C (fmul C (bitat X) (unit_lower (bitat L))) (bitat B).
Proof. exact C134_lower_right_main. Qed.
Print Assumptions C134_lower_right.

Example C134_ex : readable 70 70 tri70 /\ valid 67 70 lhs70 /\ small 67 70 /\ small 70 70 /\ words64 (repeat 5%N 64) /\
  row_of (mzd_trsm_lower_right 3 (fun _ => repeat 5%N 64) tri70 lhs70 0) 66 = Some [254604425114278255; 3]%N.
Proof. exact C134_ex_main. Qed.

(** C135: mzd_trsm_upper_right(U, B, cutoff) with at most 64 columns likewise with the unit upper
    triangular matrix; the inversion of a triangular matrix is not used then. *)
Theorem C135_upper_right : forall R C U B cutoff kcache junk trtri, readable C C U -> valid R C B -> C <= 64 ->
  exists X, mzd_trsm_upper_right kcache junk trtri U B cutoff = Ok X /\ valid R C X /\
    same R C (fmul C (bitat X) (unit_upper (bitat U))) (bitat B).
Proof. exact C135_upper_right_main. Qed.
Print Assumptions C135_upper_right.

Example C135_ex : readable 5 5 tri5 /\ valid 3 5 (mkmzd 3 5 [[1]; [3]; [31]]%N) /\
  mzd_trsm_upper_right 3 (fun _ => []) (fun _ => UB) tri5 (mkmzd 3 5 [[1]; [3]; [31]]%N) 0 = Ok (mkmzd 3 5 [[11]; [13]; [9]]%N).
Proof. exact C135_ex_main. Qed.

Theorem C136_trtri_refuted : exists A, valid 70 70 A /\ same 70 70 (unit_upper (bitat A)) (bitat A) /\
  forall l3, (2 ^ 16 <= l3)%N -> trtri_upper_russian l3 None A = UB.
Proof. exact C136_trtri_refuted_main. Qed.
Print Assumptions C136_trtri_refuted.

Example C136_ex : trtri_upper_russian (2 ^ 23) (Some 0%N) bidiag70 = Ok ones70 /\
  trtri_upper_russian (2 ^ 23) (Some (2 ^ 64 - 1)%N) bidiag70 = Ok ones70.
Proof. exact C136_ex_main. Qed.
