(** The incomplete gamma function of gamma_functions.py. *)
From Coq Require Import QArith Reals Lra Qreals Arith List Bool Lia.
From Verif Require Import Base ModelGamma SpecGamma Nist6.
Import ListNotations.
Local Open Scope R_scope.

Lemma fdiv_ok : forall x y, y <> 0 -> fdiv x y = Ok (x / y).
Proof. intros x y H. unfold fdiv. destruct (Req_EM_T y 0); [contradiction|reflexivity]. Qed.
Lemma fdiv_0 : forall x, fdiv x 0 = UB.
Proof. intros x. unfold fdiv. destruct (Req_EM_T 0 0); [reflexivity|congruence]. Qed.
(** one level of the continued fraction *)
Definition cf_step (d : nat) (a x : R) (r : res R) : res R :=
  r <- r ;;
  if Nat.odd d then q <- fdiv (1 + (INR d - 1) / 2 - a) r ;; Ok (x + q)
  else q <- fdiv (INR d / 2) r ;; Ok (1 + q).
Lemma cf_S : forall k a x, upper_cf (S k) a x = cf_step (100 - S k) a x (upper_cf k a x).
Proof. reflexivity. Qed.
Lemma odd_level : forall m a x r, (1 <= m)%nat -> r <> 0 -> cf_step (2 * m - 1) a x (Ok r) = Ok (x + (INR m - a) / r).
Proof.
  intros m a x r Hm Hr. unfold cf_step. cbn [bind]. replace (2 * m - 1)%nat with (1 + 2 * (m - 1))%nat by lia. rewrite Nat.odd_add_mul_2. cbn [Nat.odd Nat.even negb].
  rewrite fdiv_ok by exact Hr. cbn [bind]. do 2 f_equal. f_equal. rewrite plus_INR, mult_INR, minus_INR by exact Hm. simpl. lra.
Qed.
Lemma even_level : forall m a x r, r <> 0 -> cf_step (2 * m) a x (Ok r) = Ok (1 + INR m / r).
Proof.
  intros m a x r Hr. unfold cf_step. cbn [bind]. rewrite Nat.odd_mul. cbn [Nat.odd Nat.even negb andb]. rewrite fdiv_ok by exact Hr. cbn [bind].
  rewrite mult_INR. simpl (INR 2). do 2 f_equal. f_equal. lra.
Qed.
(** the tail below level 2a-1 is positive *)
Lemma cf_tail : forall k a x, (1 <= a <= 50)%nat -> 0 < x \/ (0 <= x /\ (a < 50)%nat) -> (2 * a <= 100 - k)%nat -> exists r, upper_cf k (INR a) x = Ok r /\ 0 < r.
Proof.
  intros k a x Ha Hx. induction k as [|k IH]; intros Hk.
  - exists (x + (INR 100 / 2 - INR a)). split; [reflexivity|]. assert (A := le_INR a 50 ltac:(lia)). replace (INR 100) with 100 by (simpl; lra). replace (INR 50) with 50 in A by (simpl; lra).
    destruct Hx as [Hx|[Hx Hb]]; [lra|]. assert (B := lt_INR a 50 Hb). replace (INR 50) with 50 in B by (simpl; lra). lra.
  - destruct (IH ltac:(lia)) as (r & E & Hr). rewrite cf_S, E. set (d := (100 - S k)%nat) in *.
    destruct (Nat.Even_or_Odd d) as [[m Hm]|[m Hm]].
    + rewrite Hm, even_level by lra. eexists. split; [reflexivity|]. assert (M := pos_INR m). assert (0 <= INR m / r) by (apply Rmult_le_pos; [lra|left; apply Rinv_0_lt_compat; lra]). lra.
    + replace d with (2 * (m + 1) - 1)%nat by lia. rewrite odd_level by (try lra; lia). eexists. split; [reflexivity|].
      assert (L : (S a <= m + 1)%nat) by lia. apply le_INR in L. rewrite S_INR in L.
      assert (0 < (INR (m + 1) - INR a) / r) by (apply Rmult_lt_0_compat; [lra|apply Rinv_0_lt_compat; lra]).
      destruct Hx as [Hx|[Hx _]]; lra.
Qed.
Lemma cf_middle : forall a x, (1 <= a <= 50)%nat -> 0 < x \/ (0 <= x /\ (a < 50)%nat) -> upper_cf (101 - 2 * a) (INR a) x = Ok x.
Proof.
  intros a x Ha Hx. destruct (cf_tail (100 - 2 * a) a x Ha Hx ltac:(lia)) as (r & E & Hr).
  replace (101 - 2 * a)%nat with (S (100 - 2 * a)) by lia. rewrite cf_S, E. replace (100 - S (100 - 2 * a))%nat with (2 * a - 1)%nat by lia.
  rewrite odd_level by (try lra; lia). f_equal. unfold Rdiv. rewrite Rminus_diag_eq by reflexivity. lra.
Qed.
(** the convergents *)
Fixpoint F (x : R) (m j : nat) : R := match j with O => 1 | S j' => x * F x m j' + INR m * F x (S m) j' end.
Lemma F_pos : forall x m j, 0 < x -> 0 < F x m j.
Proof.
  intros x m j Hx. revert m. induction j as [|j IH]; intros m; cbn [F]; [lra|]. assert (A := Rmult_lt_0_compat _ _ Hx (IH m)).
  assert (B := Rmult_le_pos _ _ (pos_INR m) (Rlt_le _ _ (IH (S m)))). lra.
Qed.
Lemma F_rec : forall x j m, F x (S m) j = F x m j + INR j * F x (S m) (j - 1).
Proof.
  intros x. induction j as [|j IH]; intros m; [simpl; lra|]. replace (S j - 1)%nat with j by lia.
  assert (E1 := IH m). assert (E2 := IH (S m)).
  assert (E3 : INR j * (x * F x (S m) (j - 1) + INR (S m) * F x (S (S m)) (j - 1)) = INR j * F x (S m) j).
  { destruct j as [|j]; [simpl; lra|]. replace (S j - 1)%nat with j by lia. reflexivity. }
  cbn [F]. rewrite (S_INR j). rewrite (S_INR m) in *.
  set (A := F x m j) in *. set (B := F x (S m) j) in *. set (C := F x (S (S m)) j) in *. set (P := F x (S m) (j - 1)) in *. set (Q := F x (S (S m)) (j - 1)) in *.
  clearbody A B C P Q. assert (X1 : x * B = x * (A + INR j * P)) by (f_equal; exact E1).
  assert (X2 : (INR m + 1) * C = (INR m + 1) * (B + INR j * Q)) by (f_equal; exact E2). lra.
Qed.
Lemma F_0 : forall x j, F x 0 j = x ^ j.
Proof. intros x. induction j as [|j IH]; [reflexivity|]. cbn [F pow]. rewrite IH. simpl INR. lra. Qed.
Lemma F_1 : forall x j, F x 1 j = INR (fact j) * sum_f_R0 (fun k => x ^ k / INR (fact k)) j.
Proof.
  intros x. induction j as [|j IH]; [simpl; lra|]. rewrite F_rec. replace (S j - 1)%nat with j by lia. rewrite IH, F_0. cbn [sum_f_R0].
  change (fact (S j)) with ((S j) * fact j)%nat. rewrite mult_INR. assert (A := INR_fact_neq_0 j). assert (B := not_0_INR (S j) ltac:(lia)). field. split; assumption.
Qed.
Lemma cf_level : forall a x j, (1 <= a <= 50)%nat -> 0 < x -> (j < a)%nat -> upper_cf (101 - 2 * (a - j)) (INR a) x = Ok (x * F x (a - j - 1) j / F x (a - j) j).
Proof.
  intros a x j Ha Hx. induction j as [|j IH]; intros Hj.
  - rewrite Nat.sub_0_r, cf_middle by auto. cbn [F]. f_equal. lra.
  - specialize (IH ltac:(lia)). set (m := (a - S j)%nat) in *. replace (a - j)%nat with (S m) in IH by lia. replace (S m - 1)%nat with m in IH by lia.
    replace (101 - 2 * m)%nat with (S (S (101 - 2 * S m))) by lia. rewrite !cf_S, IH.
    replace (100 - S (101 - 2 * S m))%nat with (2 * m)%nat by lia. replace (100 - S (S (101 - 2 * S m)))%nat with (2 * m - 1)%nat by lia.
    assert (P1 := F_pos x m j Hx). assert (P2 := F_pos x (S m) j Hx). assert (P3 := F_pos x m (S j) Hx). assert (P4 := F_pos x (m - 1) (S j) Hx).
    assert (H1 : 0 < x * F x m j / F x (S m) j) by (apply Rmult_lt_0_compat; [apply Rmult_lt_0_compat; auto|apply Rinv_0_lt_compat; auto]).
    rewrite even_level by lra.
    assert (E : 1 + INR m / (x * F x m j / F x (S m) j) = F x m (S j) / (x * F x m j)).
    { cbn [F]. field. repeat split; lra. }
    rewrite E. assert (H2 : 0 < F x m (S j) / (x * F x m j)) by (apply Rmult_lt_0_compat; [auto|apply Rinv_0_lt_compat, Rmult_lt_0_compat; auto]).
    rewrite odd_level by (try lra; lia). f_equal.
    assert (R := F_rec x (S j) (m - 1)). replace (S (m - 1)) with m in R by lia. replace (S j - 1)%nat with j in R by lia.
    replace (INR m - INR a) with (- INR (S j)) by (replace a with (m + S j)%nat by lia; rewrite plus_INR; lra).
    replace (F x (m - 1) (S j)) with (F x m (S j) - INR (S j) * F x m j) by lra. set (G := F x m (S j)) in *. clearbody G. field. repeat split; lra.
Qed.
Lemma gammaincc_ok : forall a x, (1 <= a <= 50)%nat -> 0 < x -> gammaincc a x = Ok (gamma_q a x).
Proof.
  intros a x Ha Hx. unfold gammaincc, upper_incomplete_gamma. assert (E := cf_level a x (a - 1) Ha Hx ltac:(lia)).
  replace (101 - 2 * (a - (a - 1)))%nat with 99%nat in E by lia. replace (a - (a - 1) - 1)%nat with 0%nat in E by lia. replace (a - (a - 1))%nat with 1%nat in E by lia.
  rewrite E. cbn [bind]. rewrite F_0, F_1. set (S := sum_f_R0 _ _). destruct (Req_EM_T x 0); [lra|].
  rewrite Rpower_pow by exact Hx.
  assert (HS : 0 < INR (fact (a - 1)) * S) by (unfold S; rewrite <- F_1; apply F_pos; exact Hx).
  assert (HF := INR_fact_neq_0 (a - 1)). assert (HS0 : S <> 0) by (intros Z; rewrite Z in HS; lra).
  assert (HP := pow_lt x (a - 1) Hx).
  rewrite fdiv_ok. 2: { apply Rgt_not_eq. apply Rmult_lt_0_compat; [apply Rmult_lt_0_compat; auto|apply Rinv_0_lt_compat; exact HS]. }
  cbn [bind]. rewrite fdiv_ok by exact HF. f_equal. unfold gamma_q. fold S. replace (x ^ a) with (x * x ^ (a - 1)) by (destruct a; [lia|]; simpl; rewrite Nat.sub_0_r; reflexivity).
  field. repeat split; try assumption; lra.
Qed.
Lemma cf_UB : forall k l a x, upper_cf k a x = UB -> (k <= l)%nat -> upper_cf l a x = UB.
Proof.
  intros k l a x H. induction l as [|l IH]; intros Hl.
  - replace k with 0%nat in H by lia. exact H.
  - destruct (Nat.eq_dec k (S l)) as [->|]; [exact H|]. rewrite cf_S, IH by lia. reflexivity.
Qed.
Lemma gammaincc_0 : forall a, (1 <= a <= 50)%nat -> gammaincc a 0 = UB.
Proof.
  intros a Ha. unfold gammaincc, upper_incomplete_gamma. destruct (Nat.eq_dec a 50) as [->|H50].
  - rewrite (cf_UB 1 99); [reflexivity| |lia]. rewrite cf_S.
    replace (upper_cf 0 (INR 50) 0) with (Ok 0 : res R) by (cbn [upper_cf]; change (Nat.odd (100 - 0)) with false; cbv iota; f_equal; simpl; lra).
    unfold cf_step. change (Nat.odd (100 - 1)) with true. cbn [bind]. rewrite fdiv_0. reflexivity.
  - assert (E := cf_middle a 0 Ha ltac:(right; split; [lra|lia])). destruct (Nat.eq_dec a 1) as [->|H1].
    + change (101 - 2 * 1)%nat with 99%nat in E. rewrite E. cbn [bind]. rewrite fdiv_0. reflexivity.
    + rewrite (cf_UB (S (101 - 2 * a)) 99); [reflexivity| |lia]. rewrite cf_S, E. replace (100 - S (101 - 2 * a))%nat with (2 * (a - 1))%nat by lia.
      unfold cf_step. cbn [bind]. rewrite Nat.odd_mul. cbn [Nat.odd Nat.even negb andb]. rewrite fdiv_0. reflexivity.
Qed.
(** ** The closed form is the function: its value at 0 and its derivative *)
Lemma gamma_q_0 : forall a, gamma_q a 0 = 1.
Proof.
  intros a. unfold gamma_q. rewrite Ropp_0, exp_0, Rmult_1_l. generalize (a - 1)%nat. intros n. induction n as [|n IH]; [simpl; lra|].
  cbn [sum_f_R0]. rewrite IH. simpl pow. unfold Rdiv. rewrite !Rmult_0_l. lra.
Qed.
Lemma gamma_q_deriv : forall a x, (1 <= a)%nat -> derivable_pt_lim (gamma_q a) x (- (x ^ (a - 1) * exp (- x) / INR (fact (a - 1)))).
Proof.
  intros a x _. unfold gamma_q. generalize (a - 1)%nat. clear a. intros n.
  assert (De : derivable_pt_lim (fun x => exp (- x)) x (- exp (- x))).
  { replace (- exp (- x)) with (exp (- x) * - (1)) by lra. apply (derivable_pt_lim_comp Ropp exp).
    - apply derivable_pt_lim_opp, derivable_pt_lim_id.
    - apply derivable_pt_lim_exp. }
  assert (Ds : derivable_pt_lim (fun x => sum_f_R0 (fun k => x ^ k / INR (fact k)) n) x (sum_f_R0 (fun k => x ^ k / INR (fact k)) n - x ^ n / INR (fact n))).
  { induction n as [|n IH].
    - simpl. replace (1 / 1 - 1 / 1) with 0 by lra. apply derivable_pt_lim_const.
    - cbn [sum_f_R0]. match goal with |- derivable_pt_lim _ _ ?v => replace v with ((sum_f_R0 (fun k => x ^ k / INR (fact k)) n - x ^ n / INR (fact n)) + (INR (S n) * x ^ (Nat.pred (S n)) * / INR (fact (S n)))) end.
      + apply (derivable_pt_lim_plus (fun x => sum_f_R0 (fun k => x ^ k / INR (fact k)) n) (fun x => x ^ S n / INR (fact (S n)))); [exact IH|].
        unfold Rdiv. replace (INR (S n) * x ^ Nat.pred (S n) * / INR (fact (S n))) with (INR (S n) * x ^ Nat.pred (S n) * / INR (fact (S n)) + x ^ S n * 0) by lra.
        apply (derivable_pt_lim_mult (fun x => x ^ S n) (fun _ => / INR (fact (S n)))); [apply derivable_pt_lim_pow|apply derivable_pt_lim_const].
      + change (fact (S n)) with ((S n) * fact n)%nat. rewrite mult_INR. cbn [Nat.pred]. assert (A := INR_fact_neq_0 n). assert (B := not_0_INR (S n) ltac:(lia)). field. split; assumption. }
  assert (D := derivable_pt_lim_mult _ _ x _ _ De Ds). unfold mult_fct in D. match type of D with derivable_pt_lim _ _ ?v => replace v with (- (x ^ n * exp (- x) / INR (fact n))) in D end; [exact D|].
  assert (A := INR_fact_neq_0 n). field. exact A.
Qed.
Lemma gamma_q_4 : forall x, gamma_q 4 x = gammaincc4 x.
Proof. intros x. unfold gamma_q, gammaincc4. f_equal. simpl. lra. Qed.

(** ** Half-integers at 0 *)
Fixpoint qcf (k : nat) (a x : Q) : option Q :=
  let d := (100 - k)%nat in let q n := inject_Z (Z.of_nat n) in
  match k with
  | O => if Nat.odd d then Some 1%Q else Some (Qred (x + (q d / 2 - a)))%Q
  | S k' => match qcf k' a x with None => None | Some r =>
      if Qeq_bool r 0 then None else
      if Nat.odd d then Some (Qred (x + (1 + (q d - 1) / 2 - a) / r))%Q else Some (Qred (1 + q d / 2 / r))%Q end
  end.
Lemma Q2R_nat : forall n, Q2R (inject_Z (Z.of_nat n)) = INR n.
Proof. intros n. unfold Q2R. simpl. rewrite INR_IZR_INZ. lra. Qed.
Lemma some_inj : forall (a b : Q), Some a = Some b -> b = a.
Proof. intros a b H. congruence. Qed.
Lemma qcf_ok : forall k a x q, qcf k a x = Some q -> upper_cf k (Q2R a) (Q2R x) = Ok (Q2R q).
Proof.
  assert (T : Q2R 2 = 2) by (unfold Q2R; simpl; lra). assert (O : Q2R 1 = 1) by (unfold Q2R; simpl; lra). assert (Z0 : Q2R 0 = 0) by (unfold Q2R; simpl; lra).
  assert (N2 : ~ (2 == 0)%Q) by discriminate.
  induction k as [|k IH]; intros a x q H.
  - cbn [qcf] in H. change (Nat.odd (100 - 0)) with false in H. cbv iota in H. apply some_inj in H. subst q. cbn [upper_cf]. change (Nat.odd (100 - 0)) with false. cbv iota. f_equal.
    rewrite (Qeq_eqR _ _ (Qred_correct _)), Q2R_plus, Q2R_minus, Q2R_div, Q2R_nat, T by exact N2. reflexivity.
  - cbn [qcf] in H. rewrite cf_S. destruct (qcf k a x) as [r|] eqn:E; [|discriminate]. rewrite (IH _ _ _ E). unfold cf_step. cbn [bind].
    destruct (Qeq_bool r 0) eqn:Er; [discriminate|]. assert (Hr : ~ (r == 0)%Q) by (apply Qeq_bool_neq, Er).
    assert (Hr' : Q2R r <> 0) by (intros Hz; apply Hr, eqR_Qeq; lra).
    destruct (Nat.odd (100 - S k)); apply some_inj in H; subst q; rewrite fdiv_ok by exact Hr'; cbn [bind]; f_equal; rewrite (Qeq_eqR _ _ (Qred_correct _)).
    + rewrite Q2R_plus, Q2R_div, Q2R_minus, Q2R_plus, Q2R_div, Q2R_minus, Q2R_nat, T, O by assumption. reflexivity.
    + rewrite Q2R_plus, !Q2R_div, Q2R_nat, T, O by assumption. reflexivity.
Qed.
Lemma half_all : forallb (fun k => match qcf 99 (inject_Z (Z.of_nat (2 * k + 1)) / 2) 0 with Some r => negb (Qeq_bool r 0) | None => false end) (seq 0 50) = true.
Proof. vm_compute. reflexivity. Qed.
Lemma half_0 : forall k, (k < 50)%nat -> upper_incomplete_gamma (INR (2 * k + 1) / 2) 0 = Ok 0.
Proof.
  intros k Hk. assert (H := half_all). rewrite forallb_forall in H. specialize (H k ltac:(apply in_seq; lia)).
  destruct (qcf 99 _ 0) as [r|] eqn:E; [|discriminate]. apply qcf_ok in E. unfold upper_incomplete_gamma.
  assert (T : Q2R 2 = 2) by (unfold Q2R; simpl; lra). assert (Z0 : Q2R 0 = 0) by (unfold Q2R; simpl; lra).
  rewrite Q2R_div, Q2R_nat, T, Z0 in E by discriminate. rewrite E. cbn [bind]. destruct (Req_EM_T 0 0); [|congruence].
  rewrite fdiv_ok; [f_equal; unfold Rdiv; rewrite !Rmult_0_l; reflexivity|]. apply negb_true_iff, Qeq_bool_neq in H. intros K. apply H, eqR_Qeq. lra.
Qed.
