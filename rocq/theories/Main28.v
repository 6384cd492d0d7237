(** C122 and C123: triangular systems of M4RI. *)
From Coq Require Import Arith NArith ZArith List Bool Lia.
From Verif Require Import Base Spec LinAlg ModelM4ri SpecM4ri M4ri1 M4riD M4ri8 ModelM4ri2 SpecM4ri2 M4ri9 M4ri14 ModelStrassen SpecStrassen Strassen1 Strassen4 Main19 ModelTri SpecTri Tri1 Tri2 Tri3 Main27.
Import ListNotations.

(** C122: mzd_trsm_lower_left(L, B, cutoff) replaces B by the solution X of L X = B, L taken as unit
    lower triangular: its diagonal and what is above do not matter. *)
Lemma C122_lower_main : forall R C L B cutoff kcache junk, readable R R L -> valid R C B -> 1 <= C ->
  small R R -> small R C -> small C R -> (N.of_nat cutoff < 2 ^ 29)%N -> (forall b, words64 (junk b)) ->
  exists X, mzd_trsm_lower_left kcache junk L B cutoff = Ok X /\ valid R C X /\
    same R C (fmul R (unit_lower (bitat L)) (bitat X)) (bitat B).
Proof.
  intros R C L B cutoff kcache junk HL HB HC S0 S1 S2 Hc HJ. apply okd_readable in HL. apply okm_valid in HB. apply wp_exists.
  unfold mzd_trsm_lower_left. pose proof HL as (L1 & L2 & _). pose proof HB as (B1 & B2 & _). rewrite L1, L2, B1, Nat.eqb_refl. cbn [negb orb].
  apply (trsm_lower_ok kcache junk cutoff (fun b => words64_w64 _ (HJ b)) Hc _ R C); auto. intros M [HM E]. split; [apply okm_valid; exact HM|].
  intros i j Hi Hj. rewrite unit_lower_sum by exact Hi. exact (E i j Hi Hj).
Qed.
(** C123: mzd_trsm_upper_left(U, B, cutoff) the same with a unit upper triangular matrix, for cutoffs
    other than 1 to 63. *)
Lemma C123_upper_main : forall R C U B cutoff kcache junk, readable R R U -> valid R C B -> 1 <= C ->
  small R R -> small R C -> small C R -> (N.of_nat cutoff < 2 ^ 29)%N -> cutoff = 0 \/ 64 <= cutoff -> (forall b, words64 (junk b)) ->
  exists X, mzd_trsm_upper_left kcache junk U B cutoff = Ok X /\ valid R C X /\
    same R C (fmul R (unit_upper (bitat U)) (bitat X)) (bitat B).
Proof.
  intros R C U B cutoff kcache junk HL HB HC S0 S1 S2 Hc Hr HJ. apply okd_readable in HL. apply okm_valid in HB. apply wp_exists.
  unfold mzd_trsm_upper_left. pose proof HL as (L1 & L2 & _). pose proof HB as (B1 & B2 & _). rewrite L1, L2, B1, Nat.eqb_refl. cbn [negb orb].
  apply (trsm_upper_ok kcache junk cutoff (fun b => words64_w64 _ (HJ b)) Hc Hr _ R C); auto. intros M [HM E]. split; [apply okm_valid; exact HM|].
  intros i j Hi Hj. rewrite unit_upper_sum by exact Hi. exact (E i j Hi Hj).
Qed.

Lemma readableb_ok : forall R C M, mnrows M = R -> mncols M = C -> length (mrows M) = R ->
  forallb (fun row => Nat.eqb (length row) ((C + 63) / 64) && forallb (fun w => N.ltb w (2 ^ 64)) row) (mrows M) = true -> readable R C M.
Proof.
  intros R C M H1 H2 H3 H4. refine (conj H1 (conj H2 (conj H3 _))). intros row Hin. rewrite forallb_forall in H4.
  specialize (H4 row Hin). apply andb_true_iff in H4. destruct H4 as [L W]. apply Nat.eqb_eq in L. split; [exact L|].
  intros w Hw. rewrite forallb_forall in W. apply N.ltb_lt, W, Hw.
Qed.
(** 70 rows, so that tables are used; the bits of [tri70] beyond column 70 are not zero *)
Definition tri70 : mzd := mkmzd 70 70 (map (fun i => let x := N.of_nat i in
  [(x * x * x * 91 + x) * 109951100003 mod 2 ^ 64; (x * 5 + 1024) mod 2 ^ 64]%N) (seq 0 70)).
Definition rhs70 : mzd := mkmzd 70 3 (map (fun i => [N.of_nat (i mod 8)]) (seq 0 70)).
Example C122_ex_main : readable 70 70 tri70 /\ valid 70 3 rhs70 /\ small 70 70 /\ small 70 3 /\ small 3 70 /\ words64 (repeat 5%N 64) /\
  row_of (mzd_trsm_lower_left 3 (fun _ => repeat 5%N 64) tri70 rhs70 0) 68 = Some [3%N].
Proof.
  split; [apply readableb_ok; vm_compute; reflexivity|]. split; [apply validb_ok; vm_compute; reflexivity|].
  do 3 (split; [vm_compute; discriminate|]).
  split; [split; [reflexivity|]; intros w H; apply repeat_spec in H; subst; reflexivity|]. vm_compute. reflexivity.
Qed.
Example C123_ex_main : readable 70 70 tri70 /\ valid 70 3 rhs70 /\ small 70 70 /\ small 70 3 /\ small 3 70 /\ words64 (repeat 5%N 64) /\
  row_of (mzd_trsm_upper_left 3 (fun _ => repeat 5%N 64) tri70 rhs70 0) 3 = Some [2%N].
Proof.
  split; [apply readableb_ok; vm_compute; reflexivity|]. split; [apply validb_ok; vm_compute; reflexivity|].
  do 3 (split; [vm_compute; discriminate|]).
  split; [split; [reflexivity|]; intros w H; apply repeat_spec in H; subst; reflexivity|]. vm_compute. reflexivity.
Qed.
