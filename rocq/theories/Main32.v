(** C137 to C139: inversion of triangular matrices of M4RI, systems with the upper triangular matrix on the
    right. *)
From Coq Require Import Arith NArith ZArith List Bool Lia.
From Verif Require Import Base Spec LinAlg ModelM4ri SpecM4ri M4ri1 M4riD M4ri8 ModelM4ri2 SpecM4ri2 ModelStrassen SpecStrassen Strassen1 Strassen3 Strassen4 Main19 ModelTri SpecTri Tri3 Main27 Main28 ModelPle ModelTriR TriR1 TriR2 TriR6 TriR7 Main31.
Import ListNotations.

(** C137: mzd_trtri_upper_russian(A, 0) replaces an upper triangular matrix with ones on the diagonal by
    its inverse, whatever is read behind a table; nothing is read there if the rows have an odd number of
    words. *)
Lemma C137_trtri_russian_main : forall n A l3 beyond, valid n n A -> same n n (bitat A) (unit_upper (bitat A)) ->
  (2 ^ 16 <= l3)%N -> beyond <> None \/ Nat.odd ((n + 63) / 64) = true ->
  exists X, trtri_upper_russian l3 beyond A = Ok X /\ valid n n X /\ same n n (fmul n (bitat X) (bitat A)) fid /\
    same n n (bitat X) (unit_upper (bitat X)).
Proof.
  intros n A l3 beyond HA HU Hl HB. apply okm_valid in HA. apply wp_exists.
  apply (trtri_upper_russian_ok l3 beyond n); [exact HA|exact Hl|exact HB|exact HU|]. intros X HX E1 E2.
  split; [apply okm_valid; exact HX|]. split; [exact E1|exact E2].
Qed.
Definition tri4 : mzd := mkmzd 4 4 [[11]; [14]; [4]; [8]]%N.
Lemma unitb_ok : forall n A, forallb (fun i => forallb (fun j => Bool.eqb (bitat A i j) (unit_upper (bitat A) i j)) (seq 0 n)) (seq 0 n) = true ->
  same n n (bitat A) (unit_upper (bitat A)).
Proof.
  intros n A H i j Hi Hj. rewrite forallb_forall in H. specialize (H i ltac:(apply in_seq; lia)). rewrite forallb_forall in H.
  specialize (H j ltac:(apply in_seq; lia)). apply Bool.eqb_prop in H. exact H.
Qed.
Example C137_ex_main : valid 70 70 bidiag70 /\ same 70 70 (bitat bidiag70) (unit_upper (bitat bidiag70)) /\
  valid 4 4 tri4 /\ same 4 4 (bitat tri4) (unit_upper (bitat tri4)) /\ Nat.odd ((4 + 63) / 64) = true /\
  trtri_upper_russian (2 ^ 18) None tri4 = Ok (mkmzd 4 4 [[7]; [14]; [4]; [8]]%N).
Proof.
  split; [apply validb_ok; vm_compute; reflexivity|]. split; [apply unitb_ok; vm_compute; reflexivity|].
  split; [apply validb_ok; vm_compute; reflexivity|]. split; [apply unitb_ok; vm_compute; reflexivity|]. split; vm_compute; reflexivity.
Qed.

(** C138: mzd_trtri_upper(U) likewise, for all sizes whose square is an int. *)
Lemma C138_trtri_main : forall n A l3 v kcache junk, valid n n A -> same n n (bitat A) (unit_upper (bitat A)) ->
  (2 ^ 16 <= l3)%N -> (N.of_nat n * N.of_nat n < 2 ^ 31)%N -> small n n -> (forall b, words64 (junk b)) ->
  exists X, mzd_trtri_upper l3 (Some v) kcache junk A = Ok X /\ valid n n X /\ same n n (fmul n (bitat X) (bitat A)) fid /\
    same n n (bitat X) (unit_upper (bitat X)).
Proof.
  intros n A l3 v kcache junk HA HU Hl Hn HS HJ. apply okm_valid in HA. apply wp_exists. unfold mzd_trtri_upper. rewrite (proj1 HA).
  eapply wp_mono; [apply (trtri_upper_ok kcache junk (fun b => words64_w64 _ (HJ b)) l3 v Hl (S n) n); [lia|exact Hn|exact HS|exact HA|exact HU]|].
  intros X (HX & E1 & E2). split; [apply okm_valid; exact HX|]. split; [exact E1|exact E2].
Qed.
Example C138_ex_main : (N.of_nat 70 * N.of_nat 70 < 2 ^ 31)%N /\ small 70 70 /\ words64 (repeat 5%N 64) /\
  mzd_trtri_upper (2 ^ 18) (Some 7%N) 3 (fun _ => repeat 5%N 64) tri4 = Ok (mkmzd 4 4 [[7]; [14]; [4]; [8]]%N).
Proof.
  split; [vm_compute; reflexivity|]. split; [vm_compute; discriminate|].
  split; [split; [reflexivity|]; intros w H; apply repeat_spec in H; subst; reflexivity|]. vm_compute. reflexivity.
Qed.

(** C139: mzd_trsm_upper_right(U, B, cutoff) replaces B by the X with X U = B, U the unit upper triangular
    matrix above the diagonal of U; with more than 64 columns the ones have to be stored on it. *)
Lemma C139_upper_right_main : forall R C U B cutoff l3 v kcache junk, valid C C U -> valid R C B -> small R C -> small C C ->
  (2 ^ 16 <= l3)%N -> (N.of_nat cutoff < 2 ^ 29)%N -> cutoff = 0 \/ 128 <= cutoff \/ R < 128 -> (forall b, words64 (junk b)) ->
  (64 < C -> forall i, i < C -> bitat U i i = true) ->
  exists X, mzd_trsm_upper_right kcache junk (mzd_trtri_upper l3 (Some v) kcache junk) U B cutoff = Ok X /\ valid R C X /\
    same R C (fmul C (bitat X) (unit_upper (bitat U))) (bitat B).
Proof.
  intros R C U B cutoff l3 v kcache junk HU HB S0 S1 Hl Hc HK HJ HD. apply okm_valid in HU, HB. apply wp_exists.
  unfold mzd_trsm_upper_right. pose proof HU as (L1 & L2 & _). pose proof HB as (B1 & B2 & _). rewrite L1, L2, B2, Nat.eqb_refl. cbn [negb orb].
  apply (trsm_upper_right_ok kcache junk (fun b => words64_w64 _ (HJ b)) (mzd_trtri_upper l3 (Some v) kcache junk) cutoff Hc (S C) R C); auto.
  - intros m Hm1 Hm2 Hm3 V HV EV. unfold mzd_trtri_upper. rewrite (proj1 HV).
    apply (trtri_upper_ok kcache junk (fun b => words64_w64 _ (HJ b)) l3 v Hl (S m) m); [lia| |eapply fits_le; [exact S1| |]; lia|exact HV|exact EV].
    apply (N.le_lt_trans _ (512 * 512)); [apply N.mul_le_mono; lia|reflexivity].
  - intros M [HM E]. split; [apply okm_valid; exact HM|exact E].
Qed.
(** 70 columns, so that the inverse is used *)
Example C139_ex_main : valid 70 70 bidiag70 /\ valid 67 70 lhs70 /\ small 67 70 /\ small 70 70 /\ words64 (repeat 5%N 64) /\
  (forall i, i < 70 -> bitat bidiag70 i i = true) /\
  row_of (mzd_trsm_upper_right 3 (fun _ => repeat 5%N 64) (mzd_trtri_upper (2 ^ 18) (Some 9%N) 3 (fun _ => repeat 5%N 64)) bidiag70 lhs70 0) 5 =
    Some [28; 3]%N.
Proof.
  split; [apply validb_ok; vm_compute; reflexivity|]. split; [apply validb_ok; vm_compute; reflexivity|].
  do 2 (split; [vm_compute; discriminate|]).
  split; [split; [reflexivity|]; intros w H; apply repeat_spec in H; subst; reflexivity|]. split.
  - intros i Hi. assert (H : forallb (fun i => bitat bidiag70 i i) (seq 0 70) = true) by (vm_compute; reflexivity).
    rewrite forallb_forall in H. apply H. apply in_seq. lia.
  - vm_compute. reflexivity.
Qed.
(** Without the ones the claim is false: up to 64 columns the diagonal is not read, with 70 it is *)
Lemma C139_diagonal_refuted_main : exists U B X, valid 70 70 U /\ valid 1 70 B /\
  mzd_trsm_upper_right 3 (fun _ => repeat 5%N 64) (mzd_trtri_upper (2 ^ 18) (Some 9%N) 3 (fun _ => repeat 5%N 64)) U B 0 = Ok X /\
  ~ same 1 70 (fmul 70 (bitat X) (unit_upper (bitat U))) (bitat B).
Proof.
  exists (mkmzd 70 70 (repeat [0; 0]%N 70)), (mkmzd 1 70 [[1; 0]]%N), (mkmzd 1 70 [[0; 0]]%N).
  split; [apply validb_ok; vm_compute; reflexivity|]. split; [apply validb_ok; vm_compute; reflexivity|]. split; [vm_compute; reflexivity|].
  intros H. specialize (H 0 0 ltac:(lia) ltac:(lia)). vm_compute in H. discriminate H.
Qed.
