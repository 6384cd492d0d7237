(** C134 to C136: triangular systems of M4RI with the matrix on the right, inversion with tables. *)
From Coq Require Import Arith NArith ZArith List Bool Lia.
From Verif Require Import Base Spec LinAlg ModelM4ri SpecM4ri M4ri1 M4riD M4ri8 ModelM4ri2 SpecM4ri2 ModelStrassen SpecStrassen Strassen1 Strassen4 Main19 ModelTri SpecTri Tri3 Main27 Main28 ModelPle ModelTriR TriR1 TriR2.
Import ListNotations.

(** C134: mzd_trsm_lower_right(L, B, cutoff) replaces B by the X with X L = B, L the unit lower triangular
    matrix below the diagonal of L. *)
Lemma C134_lower_right_main : forall R C L B cutoff kcache junk, readable C C L -> valid R C B -> small R C -> small C C ->
  (N.of_nat cutoff < 2 ^ 29)%N -> cutoff = 0 \/ 128 <= cutoff \/ R < 128 -> (forall b, words64 (junk b)) ->
  exists X, mzd_trsm_lower_right kcache junk L B cutoff = Ok X /\ valid R C X /\
    same R C (fmul C (bitat X) (unit_lower (bitat L))) (bitat B).
Proof.
  intros R C L B cutoff kcache junk HL HB S0 S1 Hc HK HJ. apply okd_readable in HL. apply okm_valid in HB. apply wp_exists.
  unfold mzd_trsm_lower_right. pose proof HL as (L1 & L2 & _). pose proof HB as (B1 & B2 & _). rewrite L1, L2, B2, Nat.eqb_refl. cbn [negb orb].
  apply (trsm_lower_right_ok kcache junk cutoff (fun b => words64_w64 _ (HJ b)) Hc _ R C); auto. intros M [HM E]. split; [apply okm_valid; exact HM|exact E].
Qed.
(** [tri70] of Main28 on the right, so that the product of the recursion is used *)
Definition lhs70 : mzd := mkmzd 67 70 (map (fun i => [N.of_nat (i * 7 + 1); N.of_nat (i mod 64)]) (seq 0 67)).
Example C134_ex_main : readable 70 70 tri70 /\ valid 67 70 lhs70 /\ small 67 70 /\ small 70 70 /\ words64 (repeat 5%N 64) /\
  row_of (mzd_trsm_lower_right 3 (fun _ => repeat 5%N 64) tri70 lhs70 0) 66 = Some [254604425114278255; 3]%N.
Proof.
  split; [apply readableb_ok; vm_compute; reflexivity|]. split; [apply validb_ok; vm_compute; reflexivity|].
  do 2 (split; [vm_compute; discriminate|]).
  split; [split; [reflexivity|]; intros w H; apply repeat_spec in H; subst; reflexivity|]. vm_compute. reflexivity.
Qed.

(** C135: mzd_trsm_upper_right(U, B, cutoff) with at most 64 columns likewise with the unit upper
    triangular matrix; the inversion of a triangular matrix is not used then. *)
Lemma C135_upper_right_main : forall R C U B cutoff kcache junk trtri, readable C C U -> valid R C B -> C <= 64 ->
  exists X, mzd_trsm_upper_right kcache junk trtri U B cutoff = Ok X /\ valid R C X /\
    same R C (fmul C (bitat X) (unit_upper (bitat U))) (bitat B).
Proof.
  intros R C U B cutoff kcache junk trtri HL HB HC. apply okd_readable in HL. apply okm_valid in HB. apply wp_exists.
  unfold mzd_trsm_upper_right. pose proof HL as (L1 & L2 & _). pose proof HB as (B1 & B2 & _). rewrite L1, L2, B2, Nat.eqb_refl. cbn [negb orb].
  cbn [trsm_upper_right]. rewrite B2. destruct (Nat.leb_spec C 64); [|lia].
  apply (upper_right_base_ok R C); auto. intros M [HM E]. split; [apply okm_valid; exact HM|exact E].
Qed.
Definition tri5 : mzd := mkmzd 5 5 [[22]; [28]; [24]; [0]; [3]]%N.
Example C135_ex_main : readable 5 5 tri5 /\ valid 3 5 (mkmzd 3 5 [[1]; [3]; [31]]%N) /\
  mzd_trsm_upper_right 3 (fun _ => []) (fun _ => UB) tri5 (mkmzd 3 5 [[1]; [3]; [31]]%N) 0 = Ok (mkmzd 3 5 [[11]; [13]; [9]]%N).
Proof. split; [apply readableb_ok; vm_compute; reflexivity|]. split; [apply validb_ok; vm_compute; reflexivity|]. vm_compute. reflexivity. Qed.

(** C136: mzd_trtri_upper_russian(A, 0) reads outside the memory of its tables: 70 columns, two words in
    a row, and the table of the columns 65 to 69, whose last row is read beyond its second word. *)
Definition bidiag70 : mzd := mkmzd 70 70 (map (fun i =>
  if Nat.ltb i 63 then [N.shiftl 3 (N.of_nat i); 0] else if Nat.eqb i 63 then [N.shiftl 1 63; 1]
  else if Nat.ltb i 69 then [0; N.shiftl 3 (N.of_nat (i - 64))] else [0; 32])%N (seq 0 70)).
Lemma bidiag_k : forall l3, (2 ^ 16 <= l3)%N -> trtri_k l3 bidiag70 = 5.
Proof.
  intros l3 H. unfold trtri_k. change (Nat.min 7 (opt_k (mnrows bidiag70) (mncols bidiag70))) with 5.
  change (3 * 2 ^ N.of_nat 5 * N.of_nat (mncols bidiag70))%N with 6720%N. destruct (N.ltb_spec (2 * l3) 6720); [|reflexivity].
  change (2 ^ 16)%N with 65536%N in H. lia.
Qed.
Lemma C136_trtri_refuted_main : exists A, valid 70 70 A /\ same 70 70 (unit_upper (bitat A)) (bitat A) /\
  forall l3, (2 ^ 16 <= l3)%N -> trtri_upper_russian l3 None A = UB.
Proof.
  exists bidiag70. split; [apply validb_ok; vm_compute; reflexivity|]. split.
  - assert (H : forallb (fun i => forallb (fun j => Bool.eqb (unit_upper (bitat bidiag70) i j) (bitat bidiag70 i j)) (seq 0 70)) (seq 0 70) = true) by (vm_compute; reflexivity).
    intros i j Hi Hj. rewrite forallb_forall in H. specialize (H i ltac:(apply in_seq; lia)). rewrite forallb_forall in H. specialize (H j ltac:(apply in_seq; lia)).
    apply Bool.eqb_prop in H. exact H.
  - intros l3 H. unfold trtri_upper_russian. rewrite (bidiag_k l3 H). vm_compute. reflexivity.
Qed.
(** What is read there has no effect in this case: the inverse has ones on and above the diagonal *)
Definition ones70 : mzd := mkmzd 70 70 (map (fun i =>
  if Nat.ltb i 64 then [N.ldiff (2 ^ 64 - 1) (2 ^ N.of_nat i - 1); 63] else [0; N.ldiff 63 (2 ^ N.of_nat (i - 64) - 1)])%N (seq 0 70)).
Example C136_ex_main : trtri_upper_russian (2 ^ 23) (Some 0%N) bidiag70 = Ok ones70 /\
  trtri_upper_russian (2 ^ 23) (Some (2 ^ 64 - 1)%N) bidiag70 = Ok ones70.
Proof. split; vm_compute; reflexivity. Qed.
