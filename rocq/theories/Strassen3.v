(** The Strassen products of ModelStrassen.v *)
From Coq Require Import Arith NArith ZArith List Bool Lia ZifyNat Btauto.
From Verif Require Import Base Spec LinAlg ModelM4ri SpecM4ri M4ri1 M4riD ModelM4ri2 M4ri14 M4ri16 ModelStrassen Strassen1 Strassen2.
Import ListNotations.
Local Open Scope nat_scope.

Lemma lin_okm : forall m k f v W, lin m k f v W -> okm m k W.
Proof. intros m k f v W H. apply H. Qed.
Lemma cin_okm : forall m k n a b z u W, cin m k n a b z u W -> okm m n W.
Proof. intros m k n a b z u W H. apply H. Qed.
Lemma cin_start : forall m k n a b (f : nat -> fmat) x W, x < 4 -> lin m n f (Nat.eqb x) W -> cin m k n a b (f x) (fun _ _ => false) W.
Proof.
  intros m k n a b f x W Hx [HW E]. split; [exact HW|]. intros i j Hi Hj. rewrite E, comb_single by assumption.
  unfold comb2. cbn [xsum andb]. btauto.
Qed.

(** Cutting is possible: below the cutoff, or large enough *)
Definition ready (d cutoff : nat) : Prop := 3 * d < 4 * cutoff \/ 128 <= d.

Lemma ready_mult : forall d cutoff, 64 <= cutoff -> d mod 64 = 0 -> ready d cutoff.
Proof.
  intros d cutoff Hc Hd. unfold ready. destruct (Nat.lt_ge_cases (3 * d) (4 * cutoff)) as [|H]; [left; assumption|right].
  apply Nat.mod_divides in Hd; [|lia]. destruct Hd as [q ->]. lia.
Qed.
Lemma ready_min : forall m k n cutoff, 64 <= cutoff -> m mod 64 = 0 -> k mod 64 = 0 -> n mod 64 = 0 -> ready (Nat.min (Nat.min m n) k) cutoff.
Proof.
  intros m k n cutoff Hc Hm Hk Hn. apply ready_mult; [exact Hc|].
  destruct (Nat.min_spec m n) as [[_ ->]|[_ ->]]; (destruct (Nat.min_spec m k) as [[_ E]|[_ E]] || idtac);
    (destruct (Nat.min_spec n k) as [[_ E']|[_ E']] || idtac); congruence.
Qed.

Ltac okm_tac := first [eassumption | eapply lin_okm; eassumption | eapply cin_okm; eassumption | exact (proj1 (init_ok _ _))].
Ltac add_lin H := apply wp_bind; eapply wp_lin_add; [okm_tac|eassumption|eassumption|]; intros ? H.
Ltac add_cin H := apply wp_bind; eapply wp_cin_add; [okm_tac|eassumption|eassumption|]; intros ? H.
Ltac quart4 := intros x y Hx Hy; destruct x as [|[|[|[|x]]]]; [| | | |lia]; (destruct y as [|[|[|[|y]]]]; [| | | |lia]); reflexivity.

(** One step of _mzd_addmul_even that cuts, from the inner products *)
Lemma addmul_step : forall kcache junk cutoff fuel wn m k n C A B (Q : mzd -> Prop), junk_ok junk ->
  okm m n C -> okd m k A -> okm k n B -> 1 <= m -> 1 <= k -> 1 <= n -> fits k n -> fits n k ->
  closer3 m k n cutoff = Ok false ->
  let mult := mult_of (Nat.min (Nat.min m n) k) cutoff in
  let mmm := half m mult in let kkk := half k mult in let nnn := half n mult in
  kkk mod 64 = 0 -> nnn mod 64 = 0 -> 2 * mmm <= m -> 2 * kkk <= k -> 2 * nnn <= n ->
  (forall wn C0 X Y, okm mmm nnn C0 -> okm mmm kkk X -> okm kkk nnn Y ->
     wp (mul_even kcache junk fuel wn cutoff C0 X Y) (mspec true mmm kkk nnn C0 X Y)) ->
  (forall wn C0 X Y, okm mmm nnn C0 -> okm mmm kkk X -> okm kkk nnn Y ->
     wp (addmul_even kcache junk fuel wn cutoff C0 X Y) (mspec false mmm kkk nnn C0 X Y)) ->
  (forall M, mspec false m k n C A B M -> Q M) -> wp (addmul_even kcache junk (S fuel) wn cutoff C A B) Q.
Proof.
  intros kcache junk cutoff fuel wn m k n C A B Q Hj HC HA HB Hm Hk Hn F1 F2 Hcl mult mmm kkk nnn K1 N1 M3 K3 N3 MUL0 ADD0 HQ.
  cbn [addmul_even]. pose proof HC as (C1 & C2 & _). pose proof HA as (A1 & A2 & _). pose proof HB as (B1 & B2 & _).
  rewrite C1, C2, A1, A2, B2. cbv zeta.
  destruct (Nat.eqb_spec m 0) as [Em|Em]; [lia|]. destruct (Nat.eqb_spec n 0) as [En|En]; [lia|]. cbn [orb].
  rewrite Hcl. cbn [bind]. fold mult. fold mmm kkk nnn. clearbody mmm kkk nnn. clear mult.
    set (a := qf (bitat A) mmm kkk). set (b := qf (bitat B) kkk nnn).
    assert (MUL : forall wn C0 X Y v w (Q' : mzd -> Prop), okm mmm nnn C0 -> lin mmm kkk a v X -> lin kkk nnn b w Y ->
      (forall M, cin mmm kkk nnn a b fzero (fun x y => v x && w y) M -> Q' M) -> wp (mul_even kcache junk fuel wn cutoff C0 X Y) Q').
    { intros wn0 C0 X Y v w Q' HC0 HX HY HQ'. eapply wp_mono; [apply MUL0; [exact HC0|apply HX|apply HY]|].
      intros M HM. apply HQ'. eapply mspec_mul; eassumption. }
    assert (ADD : forall wn C0 X Y v w z u (Q' : mzd -> Prop), cin mmm kkk nnn a b z u C0 -> lin mmm kkk a v X -> lin kkk nnn b w Y ->
      (forall M, cin mmm kkk nnn a b z (fun x y => xorb (u x y) (v x && w y)) M -> Q' M) -> wp (addmul_even kcache junk fuel wn cutoff C0 X Y) Q').
    { intros wn0 C0 X Y v w z u Q' HC0 HX HY HQ'. eapply wp_mono; [apply ADD0; [apply HC0|apply HX|apply HY]|].
      intros M HM. apply HQ'. eapply mspec_addmul; eassumption. }
    apply wp_bind, (wp_quarter m k mmm kkk A HA K1 M3 K3). fold a. intros A11 A12 A21 A22 LA11 LA12 LA21 LA22.
    apply wp_bind, (wp_quarter k n kkk nnn B (okm_okd _ _ _ HB) N1 K3 N3). fold b. intros B11 B12 B21 B22 LB11 LB12 LB21 LB22.
    apply wp_bind, (wp_quarter m n mmm nnn C (okm_okd _ _ _ HC) N1 M3 N3). intros C11 C12 C21 C22 LC11 LC12 LC21 LC22.
    apply (cin_start _ kkk _ a b) in LC11; [|lia]. apply (cin_start _ kkk _ a b) in LC12; [|lia].
    apply (cin_start _ kkk _ a b) in LC21; [|lia]. apply (cin_start _ kkk _ a b) in LC22; [|lia].
    add_lin G1. add_lin G2.
    apply wp_bind; eapply MUL; [okm_tac|eassumption|eassumption|]; intros ? G3.
    add_cin G4. add_cin G5.
    apply wp_bind; eapply MUL; [okm_tac|eassumption|eassumption|]; intros ? G8.
    add_cin G9.
    apply wp_bind; eapply ADD; [eassumption|eassumption|eassumption|]; intros ? G11.
    add_lin G6. add_lin G7.
    apply wp_bind; eapply ADD; [eassumption|eassumption|eassumption|]; intros ? G10.
    add_cin G15. add_lin G12.
    apply wp_bind; eapply ADD; [eassumption|eassumption|eassumption|]; intros ? G14.
    add_lin G13.
    apply wp_bind; eapply ADD; [eassumption|eassumption|eassumption|]; intros ? G16.
    add_lin G17. add_lin G18.
    apply wp_bind; eapply ADD; [eassumption|eassumption|eassumption|]; intros ? G19.
    add_cin G20. add_cin G21.
    apply (wp_rest kcache junk Hj false m k n (2 * mmm) (2 * kkk) (2 * nnn) C A B); auto; try lia.
    eapply inner_quarters; [eassumption|assumption|assumption|assumption|
      exact G11|exact G14|exact G20|exact G21|quart4|quart4|quart4|quart4| | | |]; intros; unfold fzero, qf, kept; cbn [negb andb]; btauto.
Qed.

(** Nothing is done for a product without entries *)
Lemma mul_even_empty : forall kcache junk fuel wn cutoff m k n C A B, 0 < fuel -> okm m n C -> m = 0 \/ n = 0 ->
  wp (mul_even kcache junk fuel wn cutoff C A B) (mspec true m k n C A B).
Proof.
  intros kcache junk fuel wn cutoff m k n C A B Hf HC H. destruct fuel; [lia|]. cbn [mul_even].
  pose proof HC as (C1 & C2 & _). rewrite C1, C2. replace (Nat.eqb m 0 || Nat.eqb n 0) with true
    by (destruct H as [-> | ->]; [reflexivity|symmetry; apply orb_true_r]).
  apply wp_ok. split; [exact HC|]. intros. lia.
Qed.
Lemma addmul_even_empty : forall kcache junk fuel wn cutoff m k n C A B, 0 < fuel -> okm m n C -> m = 0 \/ n = 0 ->
  wp (addmul_even kcache junk fuel wn cutoff C A B) (mspec false m k n C A B).
Proof.
  intros kcache junk fuel wn cutoff m k n C A B Hf HC H. destruct fuel; [lia|]. cbn [addmul_even].
  pose proof HC as (C1 & C2 & _). rewrite C1, C2. replace (Nat.eqb m 0 || Nat.eqb n 0) with true
    by (destruct H as [-> | ->]; [reflexivity|symmetry; apply orb_true_r]).
  apply wp_ok. split; [exact HC|]. intros. lia.
Qed.

Section Main.
Variables (kcache : nat) (junk : nat -> list N).
Hypothesis Hj : junk_ok junk.
Variable cutoff : nat.
Hypothesis Hc : 64 <= cutoff.
Hypothesis Hlc : limc cutoff.

Lemma fuel_ok : forall fuel m h, m < 2 ^ S fuel -> 64 <= h -> 2 * h <= m -> 0 < fuel /\ h < 2 ^ fuel.
Proof.
  intros fuel m h H1 H2 H3. rewrite Nat.pow_succ_r' in H1. split; [|lia].
  destruct fuel; [cbn in H1; lia|lia].
Qed.
Lemma lim_le : forall d d', lim d -> d' <= d -> lim d'.
Proof. intros d d' H1 H2. unfold lim in *. lia. Qed.

Lemma mul_even_ok : forall fuel wn m k n C A B (Q : mzd -> Prop), 0 < fuel -> m < 2 ^ fuel ->
  okm m n C -> okm m k A -> okm k n B -> 1 <= k -> ready (Nat.min (Nat.min m n) k) cutoff ->
  lim m -> lim k -> lim n -> fits k n -> fits n k ->
  (forall M, mspec true m k n C A B M -> Q M) -> wp (mul_even kcache junk fuel wn cutoff C A B) Q.
Proof.
  induction fuel as [|fuel IH]; intros wn m k n C A B Q H0 Hf HC HA HB Hk HR Lm Lk Ln F1 F2 HQ; [lia|].
  cbn [mul_even]. pose proof HC as (C1 & C2 & _). pose proof HA as (A1 & A2 & _). pose proof HB as (B1 & B2 & _).
  rewrite C1, C2, A1, A2, B2. cbv zeta.
  destruct (Nat.eqb_spec m 0) as [Em|Em]; cbn [orb].
  { apply wp_ok, HQ. split; [exact HC|]. intros. lia. }
  destruct (Nat.eqb_spec n 0) as [En|En].
  { apply wp_ok, HQ. split; [exact HC|]. intros. lia. }
  rewrite closer3_ok by assumption. cbn [bind].
  destruct (Nat.ltb_spec (3 * Nat.min (Nat.min m n) k) (4 * cutoff)) as [Hcl|Hcl].
  - destruct wn.
    + apply wp_bind, (wp_copy m k); [exact HA|lia|]. intros A' HA' EA.
      apply wp_bind, (wp_copy k n); [exact HB|lia|]. intros B' HB' EB.
      apply wp_bind, (wp_main kcache junk Hj false m k n); auto; [apply init_ok|lia|]. intros C' [HC' EC].
      apply (wp_copy_onto m n); auto; [lia|]. intros M HM EM. apply HQ. split; [exact HM|]. intros i j Hi Hj'.
      rewrite EM, EC by assumption. unfold kept at 1. rewrite (proj2 (init_ok m n)). cbn [negb andb]. f_equal.
      apply fmul_ext2; intros l Hl; [apply EA; exact Hi|apply EB; exact Hl].
    + apply (wp_main kcache junk Hj true m k n); auto. lia.
  - destruct HR as [HR|HR]; [lia|].
    set (d := Nat.min (Nat.min m n) k) in *. set (mult := mult_of d cutoff).
    destruct (half_ok m d cutoff Hc ltac:(lia) ltac:(lia)) as (M1 & M2 & M3).
    destruct (half_ok k d cutoff Hc ltac:(lia) ltac:(lia)) as (K1 & K2 & K3).
    destruct (half_ok n d cutoff Hc ltac:(lia) ltac:(lia)) as (N1 & N2 & N3). fold mult in M1, M2, M3, K1, K2, K3, N1, N2, N3.
    set (mmm := half m mult) in *. set (kkk := half k mult) in *. set (nnn := half n mult) in *.
    clearbody mmm kkk nnn. clear mult.
    destruct (fuel_ok fuel m mmm Hf M2 M3) as [Hf1 Hf2].
    set (a := qf (bitat A) mmm kkk). set (b := qf (bitat B) kkk nnn).
    assert (MUL : forall wn C0 X Y v w (Q' : mzd -> Prop), okm mmm nnn C0 -> lin mmm kkk a v X -> lin kkk nnn b w Y ->
      (forall M, cin mmm kkk nnn a b fzero (fun x y => v x && w y) M -> Q' M) -> wp (mul_even kcache junk fuel wn cutoff C0 X Y) Q').
    { intros wn0 C0 X Y v w Q' HC0 HX HY HQ'.
      apply (IH wn0 mmm kkk nnn); auto; [apply HX|apply HY|lia|apply ready_min; auto|apply (lim_le m); auto; lia|apply (lim_le k); auto; lia|
        apply (lim_le n); auto; lia|apply (fits_le k n); auto; lia|apply (fits_le n k); auto; lia|].
      intros M HM. apply HQ'. eapply mspec_mul; eassumption. }
    apply wp_bind, (wp_quarter m k mmm kkk A (okm_okd _ _ _ HA) K1 M3 K3). fold a. intros A11 A12 A21 A22 LA11 LA12 LA21 LA22.
    apply wp_bind, (wp_quarter k n kkk nnn B (okm_okd _ _ _ HB) N1 K3 N3). fold b. intros B11 B12 B21 B22 LB11 LB12 LB21 LB22.
    apply wp_bind, (wp_quarter m n mmm nnn C (okm_okd _ _ _ HC) N1 M3 N3). intros C11 C12 C21 C22 LC11 LC12 LC21 LC22.
    add_lin G1. add_lin G2.
    apply wp_bind; eapply MUL; [okm_tac|eassumption|eassumption|]; intros ? G3.
    add_lin G4. add_lin G5.
    apply wp_bind; eapply MUL; [okm_tac|eassumption|eassumption|]; intros ? G6.
    add_lin G7. add_lin G8.
    apply wp_bind; eapply MUL; [okm_tac|eassumption|eassumption|]; intros ? G9.
    add_lin G10.
    apply wp_bind; eapply MUL; [okm_tac|eassumption|eassumption|]; intros ? G11.
    add_cin G12.
    apply wp_bind. replace (mnrows A12) with mmm by (symmetry; apply LA12). replace (mncols B21) with nnn by (symmetry; apply LB21).
    eapply MUL; [okm_tac|eassumption|eassumption|]; intros ? G13.
    add_cin G14. add_cin G15. add_cin G16. add_lin G17.
    apply wp_bind; eapply MUL; [okm_tac|eassumption|eassumption|]; intros ? G18.
    add_cin G19. add_cin G20.
    apply wp_bind; eapply MUL; [okm_tac|eassumption|eassumption|]; intros ? G21.
    add_cin G22.
    apply (wp_rest kcache junk Hj true m k n (2 * mmm) (2 * kkk) (2 * nnn) C A B); auto; try lia.
    eapply inner_quarters; [eassumption|assumption|assumption|assumption|
      exact G22|exact G15|exact G19|exact G20|quart4|quart4|quart4|quart4| | | |]; intros; unfold fzero, qf, kept; reflexivity.
Qed.

Lemma sqr_even_ok : forall fuel wn m C A (Q : mzd -> Prop), 0 < fuel -> m < 2 ^ fuel ->
  okm m m C -> okm m m A -> 1 <= m -> ready m cutoff -> lim m -> fits m m ->
  (forall M, mspec true m m m C A A M -> Q M) -> wp (sqr_even kcache junk fuel wn cutoff C A) Q.
Proof.
  induction fuel as [|fuel IH]; intros wn m C A Q H0 Hf HC HA Hm HR Lm F1 HQ; [lia|].
  cbn [sqr_even]. pose proof HC as (C1 & C2 & _). pose proof HA as (A1 & A2 & _).
  rewrite A1. cbv zeta. rewrite closer_ok by assumption. cbn [bind].
  destruct (Nat.ltb_spec (3 * m) (4 * cutoff)) as [Hcl|Hcl].
  - destruct wn.
    + apply wp_bind, (wp_copy m m); [exact HA|lia|]. intros A' HA' EA.
      apply wp_bind, (wp_main kcache junk Hj false m m m); auto; [apply init_ok|]. intros C' [HC' EC].
      apply (wp_copy_onto m m); auto. intros M HM EM. apply HQ. split; [exact HM|]. intros i j Hi Hj'.
      rewrite EM, EC by assumption. unfold kept at 1. rewrite (proj2 (init_ok m m)). cbn [negb andb]. f_equal.
      apply fmul_ext2; intros l Hl; [apply EA; exact Hi|apply EA; exact Hl].
    + apply (wp_main kcache junk Hj true m m m); auto.
  - destruct HR as [HR|HR]; [lia|].
    destruct (half_ok m m cutoff Hc ltac:(lia) ltac:(lia)) as (M1 & M2 & M3).
    set (mmm := half m (mult_of m cutoff)) in *. clearbody mmm.
    destruct (fuel_ok fuel m mmm Hf M2 M3) as [Hf1 Hf2].
    set (a := qf (bitat A) mmm mmm).
    assert (Lh : lim mmm) by (apply (lim_le m); auto; lia). assert (Fh : fits mmm mmm) by (apply (fits_le m m); auto; lia).
    assert (MUL : forall wn C0 X Y v w (Q' : mzd -> Prop), okm mmm mmm C0 -> lin mmm mmm a v X -> lin mmm mmm a w Y ->
      (forall M, cin mmm mmm mmm a a fzero (fun x y => v x && w y) M -> Q' M) -> wp (mul_even kcache junk fuel wn cutoff C0 X Y) Q').
    { intros wn0 C0 X Y v w Q' HC0 HX HY HQ'.
      apply (mul_even_ok fuel wn0 mmm mmm mmm); auto; [apply HX|apply HY|lia|apply ready_min; auto|].
      intros M HM. apply HQ'. eapply mspec_mul; eassumption. }
    assert (SQR : forall wn C0 X v (Q' : mzd -> Prop), okm mmm mmm C0 -> lin mmm mmm a v X ->
      (forall M, cin mmm mmm mmm a a fzero (fun x y => v x && v y) M -> Q' M) -> wp (sqr_even kcache junk fuel wn cutoff C0 X) Q').
    { intros wn0 C0 X v Q' HC0 HX HQ'. apply (IH wn0 mmm); auto; [apply HX|lia|apply ready_mult; auto|].
      intros M HM. apply HQ'. eapply mspec_mul; eassumption. }
    apply wp_bind, (wp_quarter m m mmm mmm A (okm_okd _ _ _ HA) M1 M3 M3). fold a. intros A11 A12 A21 A22 LA11 LA12 LA21 LA22.
    apply wp_bind, (wp_quarter m m mmm mmm C (okm_okd _ _ _ HC) M1 M3 M3). intros C11 C12 C21 C22 LC11 LC12 LC21 LC22.
    add_lin G1.
    apply wp_bind; eapply SQR; [okm_tac|eassumption|]; intros ? G3.
    add_lin G4.
    apply wp_bind; eapply SQR; [okm_tac|eassumption|]; intros ? G6.
    add_lin G7.
    apply wp_bind; eapply SQR; [okm_tac|eassumption|]; intros ? G9.
    add_lin G10.
    apply wp_bind; eapply MUL; [okm_tac|eassumption|eassumption|]; intros ? G11.
    add_cin G12.
    apply wp_bind. replace (mnrows A12) with mmm by (symmetry; apply LA12). replace (mncols A21) with mmm by (symmetry; apply LA21).
    eapply MUL; [okm_tac|eassumption|eassumption|]; intros ? G13.
    add_cin G14. add_cin G15. add_cin G16.
    apply wp_bind; eapply MUL; [okm_tac|eassumption|eassumption|]; intros ? G18.
    add_cin G19. add_cin G20.
    apply wp_bind; eapply SQR; [okm_tac|eassumption|]; intros ? G21.
    add_cin G22.
    apply (wp_rest kcache junk Hj true m m m (2 * mmm) (2 * mmm) (2 * mmm) C A A); auto; try lia.
    eapply inner_quarters; [eassumption|assumption|assumption|assumption|
      exact G22|exact G15|exact G19|exact G20|quart4|quart4|quart4|quart4| | | |]; intros; unfold fzero, qf, kept; reflexivity.
Qed.

Lemma addmul_even_ok : forall fuel wn m k n C A B (Q : mzd -> Prop), 0 < fuel -> m < 2 ^ fuel ->
  okm m n C -> okd m k A -> okm k n B -> 1 <= k -> ready (Nat.min (Nat.min m n) k) cutoff \/ m < 128 \/ n < 128 ->
  lim m -> lim k -> lim n -> fits k n -> fits n k ->
  (forall M, mspec false m k n C A B M -> Q M) -> wp (addmul_even kcache junk fuel wn cutoff C A B) Q.
Proof.
  induction fuel as [|fuel IH]; intros wn m k n C A B Q H0 Hf HC HA HB Hk HR Lm Lk Ln F1 F2 HQ; [lia|].
  destruct (Nat.eq_dec m 0) as [Em|Em]; [eapply wp_mono; [apply (addmul_even_empty _ _ _ _ _ m k n); auto|exact HQ]|].
  destruct (Nat.eq_dec n 0) as [En|En]; [eapply wp_mono; [apply (addmul_even_empty _ _ _ _ _ m k n); auto|exact HQ]|].
  pose proof (closer3_ok m k n cutoff Lm Lk Ln Hlc) as CL.
  destruct (Nat.ltb_spec (3 * Nat.min (Nat.min m n) k) (4 * cutoff)) as [Hcl|Hcl].
  - cbn [addmul_even]. pose proof HC as (C1 & C2 & _). pose proof HA as (A1 & A2 & _). pose proof HB as (B1 & B2 & _).
    rewrite C1, C2, A1, A2, B2. cbv zeta. rewrite CL. cbn [bind].
    destruct (Nat.eqb_spec m 0); [lia|]. destruct (Nat.eqb_spec n 0); [lia|]. cbn [orb].
    destruct wn.
    + apply wp_bind, (wp_copyd m k); [exact HA|lia|]. intros A' HA' EA.
      apply wp_bind, (wp_copy k n); [exact HB|lia|]. intros B' HB' EB.
      apply wp_bind, (wp_copy m n); [exact HC|lia|]. intros C0 HC0 EC0.
      apply wp_bind, (wp_addmul kcache junk Hj m k n); auto. intros C' [HC' EC].
      apply (wp_copy_onto m n); auto; [lia|]. intros M HM EM. apply HQ. split; [exact HM|]. intros i j Hi Hj'.
      rewrite EM, EC by assumption. unfold kept. cbn [negb andb]. rewrite EC0 by assumption. f_equal.
      apply fmul_ext2; intros l Hl; [apply EA; assumption|apply EB; exact Hl].
    + apply (wp_addmul kcache junk Hj m k n); auto.
  - set (d := Nat.min (Nat.min m n) k) in *.
    destruct (Nat.lt_ge_cases d 128) as [Hd|Hd].
    + (* nothing is left to cut *)
      assert (HM : mult_of d cutoff = 64) by (pose proof (mult_ok d cutoff Hc); lia).
      assert (HH : forall x, half x 64 mod 64 = 0 /\ 2 * half x 64 <= x /\ (x < 128 -> half x 64 = 0)) by (intros x; unfold half; lia).
      assert (HE : half m 64 = 0 \/ half n 64 = 0).
      { destruct HR as [[HR|HR]|[HR|HR]]; try lia; [left|right]; apply HH; lia. }
      assert (Hf' : 0 < fuel).
      { destruct fuel; [|lia]. change (2 ^ 1) with 2 in Hf. lia. }
      apply (addmul_step kcache junk cutoff fuel wn m k n C A B); auto; try lia; fold d; rewrite HM; try (apply HH; lia); try apply HH.
      * intros wn' C0 X Y HC0 _ _. apply mul_even_empty; assumption.
      * intros wn' C0 X Y HC0 _ _. apply addmul_even_empty; assumption.
    + set (mult := mult_of d cutoff).
      destruct (half_ok m d cutoff Hc ltac:(lia) ltac:(lia)) as (M1 & M2 & M3).
      destruct (half_ok k d cutoff Hc ltac:(lia) ltac:(lia)) as (K1 & K2 & K3).
      destruct (half_ok n d cutoff Hc ltac:(lia) ltac:(lia)) as (N1 & N2 & N3). fold mult in M1, M2, M3, K1, K2, K3, N1, N2, N3.
      apply (addmul_step kcache junk cutoff fuel wn m k n C A B); auto; try lia; fold d; fold mult;
      set (mmm := half m mult) in *; set (kkk := half k mult) in *; set (nnn := half n mult) in *;
      clearbody mmm kkk nnn; auto; destruct (fuel_ok fuel m mmm Hf M2 M3) as [Hf1 Hf2].
      * intros wn0 C0 X Y HC0 HX HY.
        apply (mul_even_ok fuel wn0 mmm kkk nnn); auto; [lia|apply ready_min; auto|apply (lim_le m); auto; lia|apply (lim_le k); auto; lia|
          apply (lim_le n); auto; lia|apply (fits_le k n); auto; lia|apply (fits_le n k); auto; lia].
      * intros wn0 C0 X Y HC0 HX HY.
        apply (IH wn0 mmm kkk nnn); auto; [lia|left; apply ready_min; auto|apply (lim_le m); auto; lia|apply (lim_le k); auto; lia|
          apply (lim_le n); auto; lia|apply (fits_le k n); auto; lia|apply (fits_le n k); auto; lia].
Qed.

Lemma addsqr_even_ok : forall fuel wn m C A (Q : mzd -> Prop), 0 < fuel -> m < 2 ^ fuel ->
  okm m m C -> okm m m A -> 1 <= m -> ready m cutoff -> lim m -> fits m m ->
  (forall M, mspec false m m m C A A M -> Q M) -> wp (addsqr_even kcache junk fuel wn cutoff C A) Q.
Proof.
  induction fuel as [|fuel IH]; intros wn m C A Q H0 Hf HC HA Hm HR Lm F1 HQ; [lia|].
  cbn [addsqr_even]. pose proof HC as (C1 & C2 & _). pose proof HA as (A1 & A2 & _).
  rewrite C1, A1. cbv zeta. destruct (Nat.eqb_spec m 0) as [Em|Em]; [lia|]. rewrite closer_ok by assumption. cbn [bind].
  destruct (Nat.ltb_spec (3 * m) (4 * cutoff)) as [Hcl|Hcl].
  - destruct wn.
    + apply wp_bind, (wp_copy m m); [exact HC|lia|]. intros C0 HC0 EC0.
      apply wp_bind, (wp_copy m m); [exact HA|lia|]. intros A' HA' EA.
      apply wp_bind, (wp_addmul kcache junk Hj m m m); auto. intros C' [HC' EC].
      apply (wp_copy_onto m m); auto. intros M HM EM. apply HQ. split; [exact HM|]. intros i j Hi Hj'.
      rewrite EM, EC by assumption. unfold kept. cbn [negb andb]. rewrite EC0 by assumption. f_equal.
      apply fmul_ext2; intros l Hl; [apply EA; exact Hi|apply EA; exact Hl].
    + apply (wp_addmul kcache junk Hj m m m); auto.
  - destruct HR as [HR|HR]; [lia|].
    destruct (half_ok m m cutoff Hc ltac:(lia) ltac:(lia)) as (M1 & M2 & M3).
    set (mmm := half m (mult_of m cutoff)) in *. clearbody mmm.
    destruct (fuel_ok fuel m mmm Hf M2 M3) as [Hf1 Hf2].
    set (a := qf (bitat A) mmm mmm).
    assert (Lh : lim mmm) by (apply (lim_le m); auto; lia). assert (Fh : fits mmm mmm) by (apply (fits_le m m); auto; lia).
    assert (MUL : forall wn C0 X Y v w (Q' : mzd -> Prop), okm mmm mmm C0 -> lin mmm mmm a v X -> lin mmm mmm a w Y ->
      (forall M, cin mmm mmm mmm a a fzero (fun x y => v x && w y) M -> Q' M) -> wp (mul_even kcache junk fuel wn cutoff C0 X Y) Q').
    { intros wn0 C0 X Y v w Q' HC0 HX HY HQ'.
      apply (mul_even_ok fuel wn0 mmm mmm mmm); auto; [apply HX|apply HY|lia|apply ready_min; auto|].
      intros M HM. apply HQ'. eapply mspec_mul; eassumption. }
    assert (SQR : forall wn C0 X v (Q' : mzd -> Prop), okm mmm mmm C0 -> lin mmm mmm a v X ->
      (forall M, cin mmm mmm mmm a a fzero (fun x y => v x && v y) M -> Q' M) -> wp (sqr_even kcache junk fuel wn cutoff C0 X) Q').
    { intros wn0 C0 X v Q' HC0 HX HQ'. apply (sqr_even_ok fuel wn0 mmm); auto; [apply HX|lia|apply ready_mult; auto|].
      intros M HM. apply HQ'. eapply mspec_mul; eassumption. }
    assert (ADD : forall wn C0 X Y v w z u (Q' : mzd -> Prop), cin mmm mmm mmm a a z u C0 -> lin mmm mmm a v X -> lin mmm mmm a w Y ->
      (forall M, cin mmm mmm mmm a a z (fun x y => xorb (u x y) (v x && w y)) M -> Q' M) -> wp (addmul_even kcache junk fuel wn cutoff C0 X Y) Q').
    { intros wn0 C0 X Y v w z u Q' HC0 HX HY HQ'.
      apply (addmul_even_ok fuel wn0 mmm mmm mmm); auto; [apply HC0|apply okm_okd; apply HX|apply HY|lia|left; apply ready_min; auto|].
      intros M HM. apply HQ'. eapply mspec_addmul; eassumption. }
    assert (ADS : forall wn C0 X v z u (Q' : mzd -> Prop), cin mmm mmm mmm a a z u C0 -> lin mmm mmm a v X ->
      (forall M, cin mmm mmm mmm a a z (fun x y => xorb (u x y) (v x && v y)) M -> Q' M) -> wp (addsqr_even kcache junk fuel wn cutoff C0 X) Q').
    { intros wn0 C0 X v z u Q' HC0 HX HQ'.
      apply (IH wn0 mmm); auto; [apply HC0|apply HX|lia|apply ready_mult; auto|].
      intros M HM. apply HQ'. eapply mspec_addmul; eassumption. }
    apply wp_bind, (wp_quarter m m mmm mmm A (okm_okd _ _ _ HA) M1 M3 M3). fold a. intros A11 A12 A21 A22 LA11 LA12 LA21 LA22.
    apply wp_bind, (wp_quarter m m mmm mmm C (okm_okd _ _ _ HC) M1 M3 M3). intros C11 C12 C21 C22 LC11 LC12 LC21 LC22.
    apply (cin_start _ mmm _ a a) in LC11; [|lia]. apply (cin_start _ mmm _ a a) in LC12; [|lia].
    apply (cin_start _ mmm _ a a) in LC21; [|lia]. apply (cin_start _ mmm _ a a) in LC22; [|lia].
    add_lin G1.
    apply wp_bind; eapply SQR; [okm_tac|eassumption|]; intros ? G3.
    add_cin G4. add_cin G5.
    apply wp_bind; eapply MUL; [okm_tac|eassumption|eassumption|]; intros ? G8.
    add_cin G9.
    apply wp_bind; eapply ADS; [eassumption|eassumption|]; intros ? G11.
    add_lin G6.
    apply wp_bind; eapply ADS; [eassumption|eassumption|]; intros ? G10.
    add_cin G15. add_lin G12.
    apply wp_bind; eapply ADD; [eassumption|eassumption|eassumption|]; intros ? G14.
    apply wp_bind; eapply ADD; [eassumption|eassumption|eassumption|]; intros ? G16.
    add_lin G17.
    apply wp_bind; eapply ADS; [eassumption|eassumption|]; intros ? G19.
    add_cin G20. add_cin G21.
    apply (wp_rest kcache junk Hj false m m m (2 * mmm) (2 * mmm) (2 * mmm) C A A); auto; try lia.
    eapply inner_quarters; [eassumption|assumption|assumption|assumption|
      exact G11|exact G14|exact G20|exact G21|quart4|quart4|quart4|quart4| | | |]; intros; unfold fzero, qf, kept; cbn [negb andb]; btauto.
Qed.
End Main.

(** ** The cutoff 0 of _mzd_addmul: everything is left to the rest *)
Lemma cut_mult_zero : forall fuel width mult, width < fuel -> mult * (width + 1) <= cut_mult fuel width mult 0.
Proof.
  induction fuel as [|fuel IH]; intros width mult H; [lia|]. cbn [cut_mult].
  destruct (Nat.ltb_spec 0 width) as [Hw|Hw]; [|nia].
  assert (H2 : width / 2 < fuel) by (pose proof (Nat.div_lt width 2); lia).
  specialize (IH (width / 2) (mult * 2) H2). pose proof (Nat.div_mod width 2 ltac:(lia)) as D. pose proof (Nat.mod_upper_bound width 2 ltac:(lia)).
  set (h := width / 2) in *. nia.
Qed.
Lemma addmul_even_zero : forall kcache junk fuel wn m k n C A B (Q : mzd -> Prop), junk_ok junk -> 0 < fuel ->
  okm m n C -> okd m k A -> okm k n B -> 1 <= k -> m < 32 * k + 32 -> lim m -> lim k -> lim n -> fits k n -> fits n k ->
  (forall M, mspec false m k n C A B M -> Q M) -> wp (addmul_even kcache junk (S fuel) wn 0 C A B) Q.
Proof.
  intros kcache junk fuel wn m k n C A B Q Hj Hf HC HA HB Hk Hmk Lm Lk Ln F1 F2 HQ.
  destruct (Nat.eq_dec m 0) as [Em|Em]; [eapply wp_mono; [apply (addmul_even_empty _ _ _ _ _ m k n); auto; lia|exact HQ]|].
  destruct (Nat.eq_dec n 0) as [En|En]; [eapply wp_mono; [apply (addmul_even_empty _ _ _ _ _ m k n); auto; lia|exact HQ]|].
  set (d := Nat.min (Nat.min m n) k).
  assert (HM : 32 * d + 32 <= mult_of d 0).
  { unfold mult_of. pose proof (cut_mult_zero (S (d / 2)) (d / 2) 64 ltac:(lia)).
    pose proof (Nat.div_mod d 2 ltac:(lia)). pose proof (Nat.mod_upper_bound d 2 ltac:(lia)). lia. }
  assert (HH : forall x u, half x u mod 64 = 0 /\ 2 * half x u <= x).
  { intros x u. unfold half. split; [apply Nat.mod_mul; lia|].
    set (y := x - x mod u). assert (y <= x) by (unfold y; lia). clearbody y.
    pose proof (Nat.mul_div_le y 64 ltac:(lia)). pose proof (Nat.mul_div_le (y / 64) 2 ltac:(lia)). lia. }
  assert (HE : half m (mult_of d 0) = 0 \/ half n (mult_of d 0) = 0).
  { assert (HX : forall x, x < mult_of d 0 -> half x (mult_of d 0) = 0).
    { intros x Hx. unfold half. rewrite Nat.mod_small, Nat.sub_diag by exact Hx. reflexivity. }
    destruct (Nat.lt_ge_cases m (mult_of d 0)); [left; apply HX; assumption|right; apply HX; lia]. }
  apply (addmul_step kcache junk 0 fuel wn m k n C A B); auto; try lia; fold d; try apply HH.
  - rewrite closer3_ok by (assumption || reflexivity). reflexivity.
  - intros wn' C0 X Y HC0 _ _. apply mul_even_empty; assumption.
  - intros wn' C0 X Y HC0 _ _. apply addmul_even_empty; assumption.
Qed.
