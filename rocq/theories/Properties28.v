(** Generated by tools/gen_props.py from Main28.v: statements of the properties.
    Every theorem is closed by [exact]; its assumptions are printed beneath it. *)
From Coq Require Import Arith NArith ZArith List Bool Lia.
From Verif Require Import Base Spec LinAlg ModelM4ri SpecM4ri M4ri1 M4riD M4ri8 ModelM4ri2 SpecM4ri2 M4ri9 M4ri14 ModelStrassen SpecStrassen Strassen1 Strassen4 Main19 ModelTri SpecTri Tri1 Tri2 Tri3 Main27 Main28.
Import ListNotations.

(** C122: mzd_trsm_lower_left(L, B, cutoff) replaces B by the solution X of L X = B, L taken as unit
    lower triangular: its diagonal and what is above do not matter. *)
Theorem C122_lower : forall R C L B cutoff kcache junk, readable R R L -> valid R C B -> 1 <= C ->
  small R R -> small R C -> small C R -> (N.of_nat cutoff < 2 ^ 29)%N -> (forall b, words64 (junk b)) ->
  exists X, mzd_trsm_lower_left kcache junk L B cutoff = Ok X /\ valid R C X /\
    same R C (fmul R (unit_lower (bitat L)) (bitat X)) (bitat B).
Proof. exact C122_lower_main. Qed.
Print Assumptions C122_lower.

(** C123: mzd_trsm_upper_left(U, B, cutoff) the same with a unit upper triangular matrix, for cutoffs
    other than 1 to 63. *)
Theorem C123_upper : forall R C U B cutoff kcache junk, readable R R U -> valid R C B -> 1 <= C ->
  small R R -> small R C -> small C R -> (N.of_nat cutoff < 2 ^ 29)%N -> cutoff = 0 \/ 64 <= cutoff -> (forall b, words64 (junk b)) ->
  exists X, mzd_trsm_upper_left kcache junk U B cutoff = Ok X /\ valid R C X /\
    same R C (fmul R (unit_upper (bitat U)) (bitat X)) (bitat B).
Proof. exact C123_upper_main. Qed.
Print Assumptions C123_upper.

Example C122_ex : readable 70 70 tri70 /\ valid 70 3 rhs70 /\ small 70 70 /\ small 70 3 /\ small 3 70 /\ words64 (repeat 5%N 64) /\
  row_of (mzd_trsm_lower_left 3 (fun _ => repeat 5%N 64) tri70 rhs70 0) 68 = Some [3%N].
Proof. exact C122_ex_main. Qed.

Example C123_ex : readable 70 70 tri70 /\ valid 70 3 rhs70 /\ small 70 70 /\ small 70 3 /\ small 3 70 /\ words64 (repeat 5%N 64) /\
  row_of (mzd_trsm_upper_left 3 (fun _ => repeat 5%N 64) tri70 rhs70 0) 3 = Some [2%N].
Proof. exact C123_ex_main. Qed.
