(** The entry points mzd_mul and mzd_addmul of ModelStrassen.v; where they fail *)
From Coq Require Import Arith NArith ZArith List Bool Lia Btauto.
From Verif Require Import Base Spec LinAlg ModelM4ri SpecM4ri M4ri1 M4riD M4ri8 ModelM4ri2 SpecM4ri2 M4ri9 M4ri14 M4ri15 M4ri16 M4ri17 ModelStrassen Strassen1 Strassen2 Strassen3.
Import ListNotations.
Local Open Scope nat_scope.
#[local] Ltac Zify.zify_post_hook ::= Z.to_euclidean_division_equations.

(** ** The cutoff *)
Lemma round_ok : forall c, (N.of_nat c < 2 ^ 29)%N -> 64 <= round_cutoff c /\ limc (round_cutoff c).
Proof.
  intros c Hc. unfold round_cutoff, limc. cbv zeta.
  destruct (Nat.eqb_spec c 0); [split; [vm_compute; lia|reflexivity]|].
  destruct (Nat.ltb_spec (c / 64 * 64) 64); [split; [lia|reflexivity]|]. split; [lia|].
  change (2 ^ 31)%N with (4 * 2 ^ 29)%N. apply N.mul_lt_mono_pos_l; [reflexivity|].
  eapply N.le_lt_trans; [|exact Hc]. lia.
Qed.
Lemma round_small : forall c, 1 <= c -> c < 128 -> round_cutoff c = 64.
Proof.
  intros c H1 H2. unfold round_cutoff. cbv zeta. destruct (Nat.eqb_spec c 0); [lia|].
  destruct (Nat.ltb_spec (c / 64 * 64) 64); lia.
Qed.
Lemma round_large : forall c, c = 0 \/ 128 <= c -> 128 <= round_cutoff c.
Proof.
  intros c H. unfold round_cutoff. cbv zeta. destruct (Nat.eqb_spec c 0); [vm_compute; lia|].
  destruct (Nat.ltb_spec (c / 64 * 64) 64); lia.
Qed.
Definition cuts (c d : nat) : Prop := c = 0 \/ 128 <= c \/ d < 86 \/ 128 <= d.
Lemma ready_cuts : forall c d, (N.of_nat c < 2 ^ 29)%N -> cuts c d -> ready d (round_cutoff c).
Proof.
  intros c d Hc H. destruct (round_ok c Hc) as [H1 _]. unfold ready.
  destruct H as [H|[H|[H|H]]].
  - pose proof (round_large c (or_introl H)). lia.
  - pose proof (round_large c (or_intror H)). lia.
  - lia.
  - lia.
Qed.
Lemma cuts_min : forall c m k n, cuts c m -> cuts c k -> cuts c n -> cuts c (Nat.min (Nat.min m n) k).
Proof. intros c m k n H1 H2 H3. unfold cuts in *. lia. Qed.

Lemma fits_lim : forall r c, fits r c -> lim r /\ lim c.
Proof.
  intros r c H. unfold fits, lim in *. change (2 ^ 32)%N with 4294967296%N in H. change (2 ^ 31)%N with 2147483648%N.
  assert (H1 : (N.of_nat r * 127 <= 4294967296)%N) by (etransitivity; [|exact H]; apply N.mul_le_mono; lia).
  assert (H2 : (64 * (N.of_nat c + 127) <= 4294967296)%N) by (etransitivity; [|exact H]; apply N.mul_le_mono; lia).
  lia.
Qed.
Lemma depth_ok : forall m, m < 2 ^ S (Nat.log2 m).
Proof. intros m. destruct m; [cbn; lia|]. apply Nat.log2_spec. lia. Qed.

(** ** The products *)
(** what C is before: NULL is the zero matrix *)
Definition before (C0 : option mzd) (i j : nat) : bool := match C0 with None => false | Some C => bitat C i j end.
Lemma target_ok : forall R C C0, (forall M, C0 = Some M -> okm R C M) ->
  exists M, target C0 R C = Ok M /\ okm R C M /\ forall i j, bitat M i j = before C0 i j.
Proof.
  intros R C [M|] H; unfold target.
  - pose proof (H M eq_refl) as HM. pose proof HM as (H1 & H2 & _). rewrite H1, H2, !Nat.eqb_refl. exists M. auto.
  - exists (mzd_init R C). split; [reflexivity|]. split; [apply init_ok|]. apply init_ok.
Qed.

Section Top.
Variables (kcache : nat) (junk : nat -> list N).
Hypothesis Hj : junk_ok junk.

Lemma mul_top : forall wn R n C C0 A B c, okm R n A -> okm n C B -> (forall M, C0 = Some M -> okm R C M) ->
  1 <= n -> fits R n -> fits n C -> fits C n -> (N.of_nat c < 2 ^ 29)%N -> cuts c R -> cuts c n -> cuts c C ->
  exists P, mzd_mul kcache junk wn C0 A B c = Ok P /\ okm R C P /\
    forall i j, i < R -> j < C -> bitat P i j = fmul n (bitat A) (bitat B) i j.
Proof.
  intros wn R n C C0 A B c HA HB HC Hn F0 F1 F2 Hc K1 K2 K3. destruct (target_ok R C C0 HC) as (M & ET & HM & _).
  destruct (round_ok c Hc) as [R1 R2]. pose proof HA as (A1 & A2 & _). pose proof HB as (B1 & B2 & _).
  assert (W : wp (mul_even kcache junk (depth A) wn (round_cutoff c) M A B) (fun P => mspec true R n C M A B P)).
  { unfold depth. rewrite A1. apply (mul_even_ok kcache junk Hj (round_cutoff c) R1 R2) with (m := R) (k := n) (n := C); auto.
    - lia.
    - apply depth_ok.
    - apply ready_cuts; [exact Hc|]. apply cuts_min; assumption.
    - apply (fits_lim R n F0).
    - apply (fits_lim R n F0).
    - apply (fits_lim n C F1). }
  apply wp_exists in W. destruct W as (P & E & HP & EP). exists P.
  split; [unfold mzd_mul; rewrite A1, A2, B1, B2, Nat.eqb_refl; cbn [negb]; rewrite ET; cbn [bind]; exact E|].
  split; [exact HP|]. intros i j Hi Hj'. rewrite EP by assumption. unfold kept. apply xorb_false_l.
Qed.
Lemma sqr_top : forall wn R C0 A c, okm R R A -> (forall M, C0 = Some M -> okm R R M) ->
  1 <= R -> fits R R -> (N.of_nat c < 2 ^ 29)%N -> cuts c R ->
  exists P, mzd_sqr kcache junk wn C0 A c = Ok P /\ okm R R P /\
    forall i j, i < R -> j < R -> bitat P i j = fmul R (bitat A) (bitat A) i j.
Proof.
  intros wn R C0 A c HA HC Hn F0 Hc K1. destruct (target_ok R R C0 HC) as (M & ET & HM & _).
  destruct (round_ok c Hc) as [R1 R2]. pose proof HA as (A1 & A2 & _).
  assert (W : wp (sqr_even kcache junk (depth A) wn (round_cutoff c) M A) (fun P => mspec true R R R M A A P)).
  { unfold depth. rewrite A1. apply (sqr_even_ok kcache junk Hj (round_cutoff c) R1 R2) with (m := R); auto.
    - lia.
    - apply depth_ok.
    - apply ready_cuts; assumption.
    - apply (fits_lim R R F0). }
  apply wp_exists in W. destruct W as (P & E & HP & EP). exists P.
  split; [unfold mzd_sqr; rewrite A1, A2, Nat.eqb_refl; cbn [negb]; rewrite ET; cbn [bind]; exact E|].
  split; [exact HP|]. intros i j Hi Hj'. rewrite EP by assumption. unfold kept. apply xorb_false_l.
Qed.
Lemma addmul_top : forall wn R n C C0 A B c, okd R n A -> okm n C B -> (forall M, C0 = Some M -> okm R C M) ->
  fits R n -> fits n C -> fits C n -> (N.of_nat c < 2 ^ 29)%N -> cuts c n \/ R < 128 \/ C < 128 ->
  exists P, mzd_addmul kcache junk wn C0 A B c = Ok P /\ okm R C P /\
    forall i j, i < R -> j < C -> bitat P i j = xorb (before C0 i j) (fmul n (bitat A) (bitat B) i j).
Proof.
  intros wn R n C C0 A B c HA HB HC F0 F1 F2 Hc K. destruct (target_ok R C C0 HC) as (M & ET & HM & EM).
  destruct (round_ok c Hc) as [R1 R2]. pose proof HA as (A1 & A2 & _). pose proof HB as (B1 & B2 & _).
  unfold mzd_addmul. rewrite A1, A2, B1, B2, Nat.eqb_refl. cbn [negb]. rewrite ET. cbn [bind].
  destruct (Nat.eqb_spec R 0) as [ER|ER]; cbn [orb].
  { exists M. split; [reflexivity|]. split; [exact HM|]. intros. lia. }
  destruct (Nat.eqb_spec n 0) as [En|En]; cbn [orb].
  { exists M. split; [reflexivity|]. split; [exact HM|]. intros i j _ _. rewrite EM, En. unfold fmul. cbn [xsum]. btauto. }
  destruct (Nat.eqb_spec C 0) as [EC|EC]; cbn [orb].
  { exists M. split; [reflexivity|]. split; [exact HM|]. intros. lia. }
  assert (W : wp (addmul_even kcache junk (depth A) wn (round_cutoff c) M A B) (fun P => mspec false R n C M A B P)).
  { unfold depth. rewrite A1. apply (addmul_even_ok kcache junk Hj (round_cutoff c) R1 R2) with (m := R) (k := n) (n := C); auto.
    - lia.
    - apply depth_ok.
    - lia.
    - destruct (Nat.lt_ge_cases R 128) as [|HR1]; [right; left; assumption|]. destruct (Nat.lt_ge_cases C 128) as [|HC1]; [right; right; assumption|].
      left. apply ready_cuts; [exact Hc|]. unfold cuts in *. lia.
    - apply (fits_lim R n F0).
    - apply (fits_lim R n F0).
    - apply (fits_lim n C F1). }
  apply wp_exists in W. destruct W as (P & E & HP & EP). exists P. split; [exact E|].
  split; [exact HP|]. intros i j Hi Hj'. rewrite EP by assumption. unfold kept. rewrite EM. reflexivity.
Qed.
Lemma addsqr_top : forall wn R C0 A c, okm R R A -> (forall M, C0 = Some M -> okm R R M) ->
  fits R R -> (N.of_nat c < 2 ^ 29)%N -> cuts c R ->
  exists P, mzd_addsqr kcache junk wn C0 A c = Ok P /\ okm R R P /\
    forall i j, i < R -> j < R -> bitat P i j = xorb (before C0 i j) (fmul R (bitat A) (bitat A) i j).
Proof.
  intros wn R C0 A c HA HC F0 Hc K1. destruct (target_ok R R C0 HC) as (M & ET & HM & EM).
  destruct (round_ok c Hc) as [R1 R2]. pose proof HA as (A1 & A2 & _).
  unfold mzd_addsqr. rewrite A1, A2, Nat.eqb_refl. cbn [negb]. rewrite ET. cbn [bind].
  destruct (Nat.eqb_spec R 0) as [ER|ER]; cbn [orb].
  { exists M. split; [reflexivity|]. split; [exact HM|]. intros. lia. }
  assert (W : wp (addsqr_even kcache junk (depth A) wn (round_cutoff c) M A) (fun P => mspec false R R R M A A P)).
  { unfold depth. rewrite A1. apply (addsqr_even_ok kcache junk Hj (round_cutoff c) R1 R2) with (m := R); auto.
    - lia.
    - apply depth_ok.
    - lia.
    - apply ready_cuts; assumption.
    - apply (fits_lim R R F0). }
  apply wp_exists in W. destruct W as (P & E & HP & EP). exists P. split; [exact E|].
  split; [exact HP|]. intros i j Hi Hj'. rewrite EP by assumption. unfold kept. rewrite EM. reflexivity.
Qed.
End Top.

(** ** An inner dimension that cannot be cut *)
Lemma copy_empty : forall m W, okm m 0 W -> 0 < m -> mzd_copy W = UB.
Proof.
  intros m W (H1 & H2 & H3 & H4) Hm. unfold mzd_copy, mwidth. rewrite H1, H2. unfold mzd_copy_into, mzd_init.
  destruct m as [|m]; [lia|]. destruct (mrows W) as [|row rows]; [discriminate|].
  reflexivity.
Qed.
Section Crash.
Variables (kcache : nat) (junk : nat -> list N).
Lemma half_zero : forall k, 86 <= k -> k <= 127 -> half k 64 = 0.
Proof. intros k H1 H2. unfold half. lia. Qed.
Lemma half_pos : forall m, 128 <= m -> half m 64 mod 64 = 0 /\ 64 <= half m 64 /\ 2 * half m 64 <= m.
Proof. intros m H. unfold half. lia. Qed.
Lemma mult_k : forall k, k <= 127 -> mult_of k 64 = 64.
Proof.
  intros k H. unfold mult_of. cbn [cut_mult]. destruct (Nat.ltb_spec 64 (k / 2)); [lia|reflexivity].
Qed.
Lemma mul_even_dies : forall fuel C A B m n, okm m 0 A -> okm m n C -> lim m -> lim n -> 0 < m -> 0 < n -> mncols B = n ->
  mul_even kcache junk fuel true 64 C A B = UB.
Proof.
  intros fuel C A B m n HA HC Lm Ln Hm Hn HB. destruct fuel; [reflexivity|]. cbn [mul_even].
  pose proof HC as (C1 & C2 & _). pose proof HA as (A1 & A2 & _). rewrite C1, C2, A1, A2, HB. cbv zeta.
  destruct (Nat.eqb_spec m 0); [lia|]. destruct (Nat.eqb_spec n 0); [lia|]. cbn [orb].
  rewrite closer3_ok by (assumption || reflexivity). cbn [bind]. rewrite Nat.min_0_r. cbn [Nat.mul].
  change (Nat.ltb 0 (4 * 64)) with true. cbv iota. rewrite (copy_empty m A HA Hm). reflexivity.
Qed.
Lemma mul_dies : forall wn R n C C0 A B c, okm R n A -> okm n C B -> (forall M, C0 = Some M -> okm R C M) ->
  fits R n -> fits n C -> 1 <= c -> c < 128 -> 128 <= R -> 128 <= C -> 86 <= n -> n <= 127 ->
  mzd_mul kcache junk wn C0 A B c = UB.
Proof.
  intros wn R n C C0 A B c HA HB HC F0 F1 Hc1 Hc2 HR HCC Hn1 Hn2.
  destruct (target_ok R C C0 HC) as (M & ET & HM & _).
  pose proof HA as (A1 & A2 & _). pose proof HB as (B1 & B2 & _). pose proof HM as (M1 & M2 & _).
  unfold mzd_mul. rewrite A1, A2, B1, B2, Nat.eqb_refl. cbn [negb]. rewrite ET. cbn [bind].
  rewrite (round_small c Hc1 Hc2). unfold depth. rewrite A1. generalize (Nat.log2 R). intros fuel. cbn [mul_even].
  rewrite M1, M2, A1, A2, B2. cbv zeta. destruct (Nat.eqb_spec R 0); [lia|]. destruct (Nat.eqb_spec C 0); [lia|]. cbn [orb].
  destruct (fits_lim _ _ F0) as [LR Ln]. destruct (fits_lim _ _ F1) as [_ LC].
  rewrite closer3_ok by (assumption || reflexivity). cbn [bind].
  replace (Nat.min (Nat.min R C) n) with n by lia. destruct (Nat.ltb_spec (3 * n) (4 * 64)); [lia|].
  rewrite (mult_k n Hn2), (half_zero n Hn1 Hn2). destruct (half_pos R HR) as (P1 & P2 & P3). destruct (half_pos C HCC) as (Q1 & Q2 & Q3).
  set (mmm := half R 64) in *. set (nnn := half C 64) in *. clearbody mmm nnn.
  pose proof (wp_quarter R n mmm 0 A (okm_okd _ _ _ HA) eq_refl P3 ltac:(lia) (fun '(X11, X12, X21, X22) => okm mmm 0 X12 /\ okm mmm 0 X22)) as WA.
  apply wp_exists in WA; [|intros; split; apply H0 || apply H1 || apply H2 || apply H3].
  destruct WA as ([[[A11 A12] A21] A22] & EA & OA12 & OA22). rewrite EA. cbn [bind].
  pose proof (wp_quarter n C 0 nnn B (okm_okd _ _ _ HB) Q1 ltac:(lia) Q3 (fun '(X11, X12, X21, X22) => okm 0 nnn X12 /\ okm 0 nnn X22)) as WB.
  apply wp_exists in WB; [|intros; split; apply H0 || apply H1 || apply H2 || apply H3].
  destruct WB as ([[[B11 B12] B21] B22] & EB & OB12 & OB22). rewrite EB. cbn [bind].
  pose proof (wp_quarter R C mmm nnn M (okm_okd _ _ _ HM) Q1 P3 Q3 (fun '(X11, X12, X21, X22) => okm mmm nnn X21)) as WC.
  apply wp_exists in WC; [|intros; apply H0 || apply H1 || apply H2 || apply H3].
  destruct WC as ([[[C11 C12] C21] C22] & EC & OC21). rewrite EC. cbn [bind].
  pose proof (wp_add_into 0 nnn (mzd_init 0 nnn) B22 B12 (okm 0 nnn) (proj1 (init_ok _ _)) OB22 OB12 ltac:(auto)) as W1.
  apply wp_exists in W1. destruct W1 as (Wkn & E1 & O1). rewrite E1. cbn [bind].
  pose proof (wp_add_into mmm 0 (mzd_init mmm 0) A22 A12 (okm mmm 0) (proj1 (init_ok _ _)) OA22 OA12 ltac:(auto)) as W2.
  apply wp_exists in W2. destruct W2 as (Wmk & E2 & O2). rewrite E2. cbn [bind].
  rewrite (mul_even_dies fuel C21 Wmk Wkn mmm nnn); [reflexivity|exact O2|exact OC21| | |lia|lia|apply O1].
  - unfold lim in *. lia.
  - unfold lim in *. lia.
Qed.

(** No column of C can be cut, but the rows leave a rest: the last rows of A times a matrix without
    columns *)
Lemma bind_ub : forall A B (c : res A) (k : A -> res B), (forall a, c = Ok a -> k a = UB) -> bind c k = UB.
Proof. intros A B [a|] k H; [apply H; reflexivity|reflexivity]. Qed.
Lemma win_dims : forall M lr lc hr hc W, win M lr lc hr hc = Ok W -> mnrows W = hr - lr /\ mncols W = hc - lc.
Proof. intros M lr lc hr hc W H. unfold win in H. destruct (_ || _); [discriminate|]. injection H as <-. split; reflexivity. Qed.
Lemma rest_dies : forall C A B m2 k2, m2 < mnrows A -> 0 < mncols A -> rest kcache junk true C A B m2 k2 0 = UB.
Proof.
  intros C A B m2 k2 H1 H2. unfold rest. cbv zeta. apply bind_ub. intros C1 _. clear C.
  destruct (Nat.ltb_spec m2 (mnrows A)); [|lia]. set (c := bind (win A m2 0 (mnrows A) (mncols A)) _).
  assert (E : c = UB); [|rewrite E; reflexivity]. unfold c. apply bind_ub. intros X _. apply bind_ub. intros Y EY.
  apply bind_ub. intros Z _. apply win_dims in EY. destruct EY as [Y1 Y2]. unfold m4rm, mul_m4rm_main. rewrite Y2.
  cbn [Nat.sub Nat.ltb Nat.leb orb]. unfold mzd_mul_naive, mul_naive_body. rewrite Y2. cbn [Nat.sub Nat.ltb Nat.leb].
  unfold mzd_transpose. rewrite Y1, Y2, Nat.sub_0_r. destruct (mncols A); [lia|]. reflexivity.
Qed.
Lemma mul_dies2 : forall wn R n C C0 A B c, okm R n A -> okm n C B -> (forall M, C0 = Some M -> okm R C M) ->
  fits R n -> fits n C -> 1 <= c -> c < 128 -> 86 <= R -> 86 <= n -> 86 <= C -> C <= 127 -> R mod 128 <> 0 ->
  mzd_mul kcache junk wn C0 A B c = UB.
Proof.
  intros wn R n C C0 A B c HA HB HC F0 F1 Hc1 Hc2 HR Hn HC1 HC2 Hm.
  destruct (target_ok R C C0 HC) as (M & ET & HM & _).
  pose proof HA as (A1 & A2 & _). pose proof HB as (B1 & B2 & _). pose proof HM as (M1 & M2 & _).
  unfold mzd_mul. rewrite A1, A2, B1, B2, Nat.eqb_refl. cbn [negb]. rewrite ET. cbn [bind].
  rewrite (round_small c Hc1 Hc2). unfold depth. rewrite A1. generalize (Nat.log2 R). intros fuel. cbn [mul_even].
  rewrite M1, M2, A1, A2, B2. cbv zeta. destruct (Nat.eqb_spec R 0); [lia|]. destruct (Nat.eqb_spec C 0); [lia|]. cbn [orb].
  destruct (fits_lim _ _ F0) as [LR Ln]. destruct (fits_lim _ _ F1) as [_ LC].
  rewrite closer3_ok by (assumption || reflexivity). cbn [bind].
  destruct (Nat.ltb_spec (3 * Nat.min (Nat.min R C) n) (4 * 64)); [lia|].
  rewrite (mult_k (Nat.min (Nat.min R C) n)), (half_zero C) by lia.
  assert (HX : 2 * half R 64 < R) by (unfold half; lia). set (mmm := half R 64) in *. clearbody mmm.
  do 3 (apply bind_ub; intros [[[? ?] ?] ?] _).
  repeat (lazymatch goal with |- rest _ _ _ _ _ _ _ _ _ = UB => fail | _ => apply bind_ub; intros ? _ end).
  apply rest_dies; lia.
Qed.
Lemma sqr_dies : forall wn R C0 A c, okm R R A -> (forall M, C0 = Some M -> okm R R M) ->
  fits R R -> 1 <= c -> c < 128 -> 86 <= R -> R <= 127 -> mzd_sqr kcache junk wn C0 A c = UB.
Proof.
  intros wn R C0 A c HA HC F0 Hc1 Hc2 HR1 HR2.
  destruct (target_ok R R C0 HC) as (M & ET & HM & _).
  pose proof HA as (A1 & A2 & _). unfold mzd_sqr. rewrite A1, A2, Nat.eqb_refl. cbn [negb]. rewrite ET. cbn [bind].
  rewrite (round_small c Hc1 Hc2). unfold depth. rewrite A1. generalize (Nat.log2 R). intros fuel. cbn [sqr_even].
  rewrite A1. cbv zeta. destruct (fits_lim _ _ F0) as [LR _]. rewrite closer_ok by (assumption || reflexivity). cbn [bind].
  destruct (Nat.ltb_spec (3 * R) (4 * 64)); [lia|]. rewrite (mult_k R), (half_zero R) by lia.
  do 2 (apply bind_ub; intros [[[? ?] ?] ?] _). repeat (lazymatch goal with |- rest _ _ _ _ _ _ _ _ _ = UB => fail | _ => apply bind_ub; intros ? _ end). apply rest_dies; lia.
Qed.
Lemma main_empty : forall m n C A B (Q : mzd -> Prop), okm m n C -> mnrows A = m -> mncols A = 0 -> mncols B = n -> 64 <= m -> 64 <= n ->
  (forall M, okm m n M -> Q M) -> wp (mul_m4rm_main true kcache junk C A B 0) Q.
Proof.
  intros m n C A B Q HC A1 A2 B2 Hm Hn HQ. unfold mul_m4rm_main. cbv zeta. rewrite A1, A2, B2.
  destruct (Nat.ltb_spec n 54); [lia|]. destruct (Nat.ltb_spec m 16); [lia|]. cbn [orb].
  apply wp_bind, (wp_set_zero m n); [exact HC|lia|]. intros M HM _.
  set (kx := m4rm_k _ _ _ _ _). destruct (m4rm_k_ok kcache 0 m 0 n) as [K1 K2]. fold kx in K1, K2.
  rewrite Nat.div_0_l, Nat.mod_0_l by lia.
  apply wp_bind, (wp_for_up _ (fun _ '(M, _) => okm m n M)); [lia|exact HM| |].
  - intros g [M1 T1] _ _ H1. apply (wp_for_up _ (fun _ '(M, _) => okm m n M)); [lia|exact H1|intros; lia|auto].
  - intros [M1 T1] H1. apply wp_ok, HQ. exact H1.
Qed.
Lemma addmul_dies : forall wn R n C C0 A B c, okm R n A -> okm n C B -> (forall M, C0 = Some M -> okm R C M) ->
  fits R n -> fits n C -> 1 <= c -> c < 128 -> 128 <= R -> 128 <= C -> 86 <= n -> n <= 127 ->
  mzd_addmul kcache junk wn C0 A B c = UB.
Proof.
  intros wn R n C C0 A B c HA HB HC F0 F1 Hc1 Hc2 HR HCC Hn1 Hn2.
  destruct (target_ok R C C0 HC) as (M & ET & HM & _).
  pose proof HA as (A1 & A2 & _). pose proof HB as (B1 & B2 & _). pose proof HM as (M1 & M2 & _).
  unfold mzd_addmul. rewrite A1, A2, B1, B2, Nat.eqb_refl. cbn [negb]. rewrite ET. cbn [bind].
  destruct (Nat.eqb_spec R 0); [lia|]. destruct (Nat.eqb_spec n 0); [lia|]. destruct (Nat.eqb_spec C 0); [lia|]. cbn [orb].
  rewrite (round_small c Hc1 Hc2). unfold depth. rewrite A1. generalize (Nat.log2 R). intros fuel. cbn [addmul_even].
  rewrite M1, M2, A1, A2, B2. cbv zeta. destruct (Nat.eqb_spec R 0); [lia|]. destruct (Nat.eqb_spec C 0); [lia|]. cbn [orb].
  destruct (fits_lim _ _ F0) as [LR Ln]. destruct (fits_lim _ _ F1) as [_ LC].
  rewrite closer3_ok by (assumption || reflexivity). cbn [bind].
  replace (Nat.min (Nat.min R C) n) with n by lia. destruct (Nat.ltb_spec (3 * n) (4 * 64)); [lia|].
  rewrite (mult_k n Hn2), (half_zero n Hn1 Hn2). destruct (half_pos R HR) as (P1 & P2 & P3). destruct (half_pos C HCC) as (Q1 & Q2 & Q3).
  set (mmm := half R 64) in *. set (nnn := half C 64) in *. clearbody mmm nnn.
  pose proof (wp_quarter R n mmm 0 A (okm_okd _ _ _ HA) eq_refl P3 ltac:(lia) (fun '(X11, X12, X21, X22) => okm mmm 0 X12 /\ okm mmm 0 X21 /\ okm mmm 0 X22)) as WA.
  apply wp_exists in WA; [|intros; split; [apply H1|split; [apply H2|apply H3]]].
  destruct WA as ([[[A11 A12] A21] A22] & EA & OA12 & OA21 & OA22). rewrite EA. cbn [bind].
  pose proof (wp_quarter n C 0 nnn B (okm_okd _ _ _ HB) Q1 ltac:(lia) Q3 (fun '(X11, X12, X21, X22) => okm 0 nnn X21 /\ okm 0 nnn X22)) as WB.
  apply wp_exists in WB; [|intros; split; apply H0 || apply H1 || apply H2 || apply H3].
  destruct WB as ([[[B11 B12] B21] B22] & EB & OB21 & OB22). rewrite EB. cbn [bind].
  apply bind_ub. intros [[[C11 C12] C21] C22] _.
  pose proof (wp_add_into mmm 0 (mzd_init mmm 0) A22 A21 (okm mmm 0) (proj1 (init_ok _ _)) OA22 OA21 ltac:(auto)) as W2.
  apply wp_exists in W2. destruct W2 as (Wmk & E2 & O2). rewrite E2. cbn [bind].
  pose proof (wp_add_into 0 nnn (mzd_init 0 nnn) B22 B21 (okm 0 nnn) (proj1 (init_ok _ _)) OB22 OB21 ltac:(auto)) as W1.
  apply wp_exists in W1. destruct W1 as (Wkn & E1 & O1). rewrite E1. cbn [bind].
  apply bind_ub. intros U EU.
  assert (LM : lim mmm) by (unfold lim in *; lia). assert (LN : lim nnn) by (unfold lim in *; lia).
  assert (OU : okm mmm nnn U).
  { destruct fuel; [discriminate|]. cbn [mul_even] in EU. destruct O2 as (O21 & O22 & _). destruct O1 as (_ & O12 & _).
    rewrite O21, O22, O12 in EU. cbv zeta in EU. cbn [mzd_init mnrows mncols] in EU.
    destruct (Nat.eqb_spec mmm 0); [lia|]. destruct (Nat.eqb_spec nnn 0); [lia|]. cbn [orb] in EU.
    rewrite closer3_ok in EU by (assumption || reflexivity). cbn [bind] in EU. rewrite Nat.min_0_r in EU.
    change (Nat.ltb (3 * 0) (4 * 64)) with true in EU. cbv iota in EU.
    pose proof (main_empty mmm nnn (mzd_init mmm nnn) Wmk Wkn (okm mmm nnn) (proj1 (init_ok _ _)) O21 O22 O12 ltac:(lia) ltac:(lia) ltac:(auto)) as W.
    apply wp_exists in W. destruct W as (U' & EU' & OU'). rewrite EU' in EU. injection EU as <-. exact OU'. }
  do 2 (apply bind_ub; intros ? _).
  rewrite (mul_even_dies fuel U A12 B21 mmm nnn); [reflexivity|exact OA12|exact OU|exact LM|exact LN|lia|lia|apply OB21].
Qed.
End Crash.
