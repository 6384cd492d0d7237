(** Template matching: the test passes whatever the counts, within wide limits. *)
From Coq Require Import Arith NArith ZArith QArith Lqa Reals Lra Qreals List Bool Lia.
From Verif Require Import Base Spec LinAlg Mem ModelRank ModelBM ModelNist ModelNist2 SpecNist SpecNist2 SpecGamma RankCount Nist1 Nist2 Nist3 Nist5.
Import ListNotations.
Local Open Scope nat_scope.

Lemma mean_var : forall M m, 5 <= m <= 8 -> m <= M ->
  (0 < nist_variance M m /\ 0 <= nist_mean M m /\ nist_mean M m * nist_mean M m <= 2 * (nist_variance M m * nist_variance M m))%Q.
Proof.
  intros M m Hm HM. unfold nist_mean, nist_variance.
  assert (HX : (1 <= inject_Z (Z.of_nat M))%Q) by (change 1%Q with (inject_Z 1); rewrite <- Zle_Qle; lia).
  assert (HY : (0 <= inject_Z (Z.of_nat M - Z.of_nat m + 1) <= inject_Z (Z.of_nat M))%Q).
  { split; [change 0%Q with (inject_Z 0)|]; rewrite <- Zle_Qle; lia. }
  set (x := inject_Z (Z.of_nat M)) in *. set (y := inject_Z (Z.of_nat M - Z.of_nat m + 1)) in *. clearbody x y.
  assert (K : m = 5 \/ m = 6 \/ m = 7 \/ m = 8) by lia.
  assert (E : exists c p : Q, (x * (1 / inject_Z (2 ^ Z.of_nat m) - inject_Z (2 * Z.of_nat m - 1) / inject_Z (2 ^ (2 * Z.of_nat m))) == x * c)%Q /\
     (y / inject_Z (2 ^ Z.of_nat m) == y * p)%Q /\ (0 < p)%Q /\ (23 # 32 <= c / p)%Q /\ (0 < c)%Q).
  { destruct K as [->|[->|[->| ->]]].
    - exists (23 # 1024), (1 # 32). unfold Qdiv at 3. refine (conj _ (conj _ (conj _ (conj _ _)))); [apply Qmult_comp; reflexivity|apply Qmult_comp; reflexivity| | |]; vm_compute; congruence.
    - exists (53 # 4096), (1 # 64). unfold Qdiv at 3. refine (conj _ (conj _ (conj _ (conj _ _)))); [apply Qmult_comp; reflexivity|apply Qmult_comp; reflexivity| | |]; vm_compute; congruence.
    - exists (115 # 16384), (1 # 128). unfold Qdiv at 3. refine (conj _ (conj _ (conj _ (conj _ _)))); [apply Qmult_comp; reflexivity|apply Qmult_comp; reflexivity| | |]; vm_compute; congruence.
    - exists (241 # 65536), (1 # 256). unfold Qdiv at 3. refine (conj _ (conj _ (conj _ (conj _ _)))); [apply Qmult_comp; reflexivity|apply Qmult_comp; reflexivity| | |]; vm_compute; congruence. }
  destruct E as (c & p & -> & -> & Hp & Hc & Hc0).
  assert (Hc' : ((23 # 32) * p <= c)%Q).
  { setoid_replace c with (c / p * p)%Q by (field; intros Z; rewrite Z in Hp; discriminate). apply Qmult_le_compat_r; [exact Hc|]. apply Qlt_le_weak, Hp. }
  refine (conj _ (conj _ _)).
  - apply Qmult_lt_0_compat; [Lqa.lra|exact Hc0].
  - apply Qmult_le_0_compat; Lqa.lra.
  - assert (A1 : (y * p <= x * p)%Q) by (apply Qmult_le_compat_r; Lqa.lra).
    assert (A2 : (x * ((23 # 32) * p) <= x * c)%Q) by Lqa.nra.
    assert (A0 : (0 <= y * p)%Q) by (apply Qmult_le_0_compat; Lqa.lra).
    set (a := (y * p)%Q) in *. set (b := (x * c)%Q) in *. set (d := (x * p)%Q) in *.
    assert (A3 : ((23 # 32) * d <= b)%Q) by (unfold d; Lqa.lra). clearbody a b d.
    assert (A4 : (0 <= d)%Q) by Lqa.lra.
    Lqa.nra.
Qed.
Lemma chisq_16 : forall M m W, 5 <= m <= 8 -> m <= M -> length W = 8 ->
  (forall w, In w W -> inject_Z (Z.of_nat w) <= 2 * nist_mean M m)%Q -> (0 <= template_chisq M m W <= 16)%Q.
Proof.
  intros M m W Hm HM HL HW. destruct (mean_var M m Hm HM) as (V1 & V2 & V3).
  rewrite template_chisq_eq by lia. unfold nist_chisq. set (v := nist_variance M m) in *. set (mu := nist_mean M m) in *. clearbody v mu.
  assert (Hv : ~ (v == 0)%Q) by (intros Z; rewrite Z in V1; discriminate).
  assert (G : (0 <= fold_right Qplus 0 (map (fun w => let d := inject_Z (Z.of_nat w) - mu in d * d / v) W) / v <= 2 * inject_Z (Z.of_nat (length W)))%Q).
  { clear HL. induction W as [|w W IH]; [vm_compute; split; congruence|]. cbn [map fold_right length].
    specialize (IH ltac:(intros; apply HW; simpl; auto)). specialize (HW w ltac:(simpl; auto)). cbv zeta.
    set (s := fold_right _ _ _) in *. clearbody s.
    assert (H0 : (0 <= inject_Z (Z.of_nat w))%Q) by (change 0%Q with (inject_Z 0); rewrite <- Zle_Qle; lia).
    set (d := (inject_Z (Z.of_nat w) - mu)%Q). assert (Hd : (d * d <= 2 * (v * v))%Q) by (unfold d in *; Lqa.nra).
    assert (Hd0 : (0 <= d * d)%Q) by Lqa.nra. clearbody d.
    setoid_replace ((d * d / v + s) / v)%Q with (d * d / (v * v) + s / v)%Q by (field; auto).
    assert (Hvv : (0 < v * v)%Q) by Lqa.nra.
    assert (T1 : (d * d / (v * v) <= 2)%Q) by (apply Qle_shift_div_r; [exact Hvv|Lqa.lra]).
    assert (T2 : (0 <= d * d / (v * v))%Q) by (apply Qle_shift_div_l; [exact Hvv|Lqa.lra]).
    rewrite Nat2Z.inj_succ. unfold Z.succ. rewrite inject_Z_plus. change (inject_Z 1) with 1%Q. Lqa.lra. }
  rewrite HL in G. change (2 * inject_Z (Z.of_nat 8))%Q with (16 # 1)%Q in G. exact G.
Qed.

Local Open Scope R_scope.
(** Q(4, x) *)
Definition gammaincc4 (x : R) : R := exp (- x) * (1 + x + x * x / 2 + x * x * x / 6).
Lemma exp_3 : forall n : nat, exp (INR n) <= 3 ^ n.
Proof.
  induction n as [|n IH]; [simpl; rewrite exp_0; lra|]. rewrite S_INR, exp_plus. simpl pow.
  assert (H := exp_le_3). assert (P := exp_pos (INR n)). assert (P1 := exp_pos 1). nra.
Qed.
Lemma exp_up : forall x (n : nat), x <= INR n -> exp x <= 3 ^ n.
Proof.
  intros x n H. apply Rle_trans with (exp (INR n)); [|apply exp_3]. destruct H as [H|H]; [left; apply exp_increasing, H|right; rewrite H; reflexivity].
Qed.
Lemma gamma4_pass : forall x, 0 <= x <= 8 -> 1 / 100 <= gammaincc4 x.
Proof.
  intros x Hx. unfold gammaincc4. rewrite exp_Ropp.
  assert (P := exp_pos x).
  assert (G : exp x <= 100 * (1 + x + x * x / 2 + x * x * x / 6)).
  { assert (N4 : INR 4 = 4) by (simpl; lra). assert (N6 : INR 6 = 6) by (simpl; lra). assert (N7 : INR 7 = 7) by (simpl; lra). assert (N8 : INR 8 = 8) by (simpl; lra).
    destruct (Rle_lt_dec x 4) as [H|H].
    - assert (X := exp_up x 4 ltac:(lra)). simpl pow in X. assert (0 <= x * x) by nra. assert (0 <= x * x * x) by (apply Rmult_le_pos; lra). lra.
    - destruct (Rle_lt_dec x 6) as [H6|H6].
      + assert (X := exp_up x 6 ltac:(lra)). simpl pow in X. assert (16 <= x * x) by nra. assert (0 <= x * x * x) by (apply Rmult_le_pos; lra). lra.
      + destruct (Rle_lt_dec x 7) as [H7|H7].
        * assert (X := exp_up x 7 ltac:(lra)). simpl pow in X. assert (36 <= x * x) by nra. assert (0 <= x * x * x) by (apply Rmult_le_pos; lra). lra.
        * assert (X := exp_up x 8 ltac:(lra)). simpl pow in X. assert (49 <= x * x) by nra. assert (343 <= x * x * x) by nra. lra. }
  apply Rmult_le_reg_l with (exp x); [exact P|]. rewrite <- Rmult_assoc, Rinv_r by lra. lra.
Qed.
Lemma template_pass : forall M m W, (5 <= m <= 8)%nat -> (m <= M)%nat -> length W = 8%nat ->
  (forall w, In w W -> inject_Z (Z.of_nat w) <= 2 * nist_mean M m)%Q -> 1 / 100 <= gammaincc4 (Q2R (template_chisq M m W) / 2).
Proof.
  intros M m W Hm HM HL HW. destruct (chisq_16 M m W Hm HM HL HW) as [H1 H2]. apply gamma4_pass.
  apply Qle_Rle in H1, H2. replace (Q2R 0) with 0 in H1 by (unfold Q2R; simpl; lra). replace (Q2R 16) with 16 in H2 by (unfold Q2R; simpl; lra). lra.
Qed.

Lemma gamma4_fail : forall x, 50 <= x -> gammaincc4 x < 1 / 100.
Proof.
  intros x Hx. unfold gammaincc4. rewrite exp_Ropp. set (t := 1 + x / 10).
  assert (Ht : 6 <= t) by (unfold t; lra).
  assert (E1 : t <= exp (x / 10)) by (unfold t; destruct (Req_dec (x / 10) 0); [lra|left; apply exp_ineq1; lra]).
  assert (E2 : t ^ 10 <= exp x).
  { replace (exp x) with (exp (x / 10) ^ 10).
    - apply pow_incr. lra.
    - simpl pow. rewrite Rmult_1_r, <- !exp_plus. f_equal. lra. }
  assert (T3 : 216 <= t ^ 3) by (replace 216 with (6 ^ 3) by lra; apply pow_incr; lra).
  assert (T7 : 279936 <= t ^ 7) by (replace 279936 with (6 ^ 7) by lra; apply pow_incr; lra).
  assert (T10 : t ^ 10 = t ^ 7 * t ^ 3) by ring.
  assert (B : 1 + x + x * x / 2 + x * x * x / 6 <= 1000 * t ^ 3).
  { unfold t. simpl pow. assert (0 <= x * x) by nra. assert (0 <= x * x * x) by (apply Rmult_le_pos; lra). nra. }
  assert (P := exp_pos x). apply Rmult_lt_reg_l with (exp x); [exact P|]. rewrite <- Rmult_assoc, Rinv_r by lra.
  set (g := 1 + x + x * x / 2 + x * x * x / 6) in *. clearbody g. set (u := t ^ 3) in *. set (w := t ^ 7) in *. clearbody u w. nra.
Qed.
Lemma nist_zeros : forall M m, (5 <= m <= 8)%nat -> (4096 <= M)%nat -> (100 <= nist_chisq M m (repeat 0%nat 8))%Q.
Proof.
  intros M m Hm HM. unfold nist_chisq, nist_mean, nist_variance.
  assert (HX : (4096 <= inject_Z (Z.of_nat M))%Q) by (change 4096%Q with (inject_Z 4096); rewrite <- Zle_Qle; lia).
  assert (HY : (inject_Z (Z.of_nat M) - 7 <= inject_Z (Z.of_nat M - Z.of_nat m + 1))%Q).
  { change 7%Q with (inject_Z 7). unfold Qminus. rewrite <- inject_Z_opp, <- inject_Z_plus, <- Zle_Qle. lia. }
  set (x := inject_Z (Z.of_nat M)) in *. set (y := inject_Z (Z.of_nat M - Z.of_nat m + 1)) in *. clearbody x y.
  assert (K : (m = 5 \/ m = 6 \/ m = 7 \/ m = 8)%nat) by lia.
  assert (E : exists c p : Q, (x * (1 / inject_Z (2 ^ Z.of_nat m) - inject_Z (2 * Z.of_nat m - 1) / inject_Z (2 ^ (2 * Z.of_nat m))) == x * c)%Q /\
     (y / inject_Z (2 ^ Z.of_nat m) == y * p)%Q /\ (1 # 256 <= p)%Q /\ (c <= p)%Q /\ (0 < c)%Q).
  { destruct K as [->|[->|[->| ->]]].
    - exists (23 # 1024), (1 # 32). unfold Qdiv at 3. refine (conj _ (conj _ (conj _ (conj _ _)))); [apply Qmult_comp; reflexivity|apply Qmult_comp; reflexivity| | |]; vm_compute; congruence.
    - exists (53 # 4096), (1 # 64). unfold Qdiv at 3. refine (conj _ (conj _ (conj _ (conj _ _)))); [apply Qmult_comp; reflexivity|apply Qmult_comp; reflexivity| | |]; vm_compute; congruence.
    - exists (115 # 16384), (1 # 128). unfold Qdiv at 3. refine (conj _ (conj _ (conj _ (conj _ _)))); [apply Qmult_comp; reflexivity|apply Qmult_comp; reflexivity| | |]; vm_compute; congruence.
    - exists (241 # 65536), (1 # 256). unfold Qdiv at 3. refine (conj _ (conj _ (conj _ (conj _ _)))); [apply Qmult_comp; reflexivity|apply Qmult_comp; reflexivity| | |]; vm_compute; congruence. }
  destruct E as (c & p & E1 & E2 & Hp & Hc & Hc0). cbn [repeat map fold_right]. change (inject_Z (Z.of_nat 0)) with 0%Q. cbv zeta. rewrite E1, E2.
  assert (Hv : (0 < x * c)%Q) by (apply Qmult_lt_0_compat; Lqa.lra).
  assert (Hb : ((25 # 2) * (x * c) <= (0 - y * p) * (0 - y * p))%Q).
  { assert (A1 : (x * c <= x * p)%Q) by (rewrite !(Qmult_comm x); apply Qmult_le_compat_r; Lqa.lra).
    assert (A2 : (x * p - 7 * p <= y * p)%Q) by (setoid_replace (x * p - 7 * p)%Q with ((x - 7) * p)%Q by ring; apply Qmult_le_compat_r; Lqa.lra).
    assert (A3 : (x * (1 # 256) <= x * p)%Q) by (rewrite !(Qmult_comm x); apply Qmult_le_compat_r; Lqa.lra).
    assert (A4 : (7 * p <= x * p * (7 # 4096))%Q) by Lqa.nra.
    set (d := (x * p)%Q) in *. set (b := (x * c)%Q) in *. set (a := (y * p)%Q) in *.
    assert (A5 : (d * (4089 # 4096) <= a)%Q) by Lqa.lra. assert (A6 : (16 <= d)%Q) by Lqa.lra. clearbody a b d. Lqa.nra. }
  assert (T : (25 # 2 <= (0 - y * p) * (0 - y * p) / (x * c))%Q) by (apply Qle_shift_div_l; assumption).
  set (q := ((0 - y * p) * (0 - y * p) / (x * c))%Q) in *. clearbody q. Lqa.lra.
Qed.
Lemma zeros_pos : forall M m, (5 <= m <= 8)%nat -> (4096 <= M)%nat -> (0 < template_chisq M m (repeat 0%nat 8))%Q.
Proof.
  intros M m Hm HM. rewrite template_chisq_eq by lia. assert (H := nist_zeros M m Hm HM). destruct (mean_var M m Hm ltac:(lia)) as (V & _).
  apply Qlt_shift_div_l; [exact V|]. rewrite Qmult_0_l. eapply Qlt_le_trans; [|exact H]. reflexivity.
Qed.
Lemma nist_zeros_fail : forall M m, (5 <= m <= 8)%nat -> (4096 <= M)%nat -> gammaincc4 (Q2R (nist_chisq M m (repeat 0%nat 8)) / 2) < 1 / 100.
Proof.
  intros M m Hm HM. apply gamma4_fail. assert (H := Qle_Rle _ _ (nist_zeros M m Hm HM)). replace (Q2R 100) with 100 in H by (unfold Q2R; simpl; lra). lra.
Qed.

(** a sequence of zeros *)
Local Open Scope nat_scope.
Lemma zeros_W : forall B n, isbits B -> unbordered B -> 2 <= length B -> template_W B (repeat 0%N n) = Ok (repeat 0 8).
Proof.
  intros B n HB HU HL. unfold template_W. rewrite repeat_length. set (M := n / 8).
  assert (HM : 8 * M <= n) by (apply Nat.mul_div_le; lia).
  assert (Hne : B <> []) by (intros ->; simpl in HL; lia).
  assert (Hs : forall i, i < 8 -> scan (M + 1) B (pyslice (repeat 0%N n) (i * M) ((i + 1) * M)) M 0 0 = Ok 0).
  { intros i Hi. set (w := pyslice _ _ _).
    assert (Lw : length w = M) by (unfold w, pyslice; rewrite firstn_length, skipn_length, repeat_length; nia).
    assert (Zw : forall x, In x w -> x = 0%N).
    { intros x Hx. unfold w, pyslice in Hx. apply (repeat_spec n 0%N). rewrite <- (firstn_skipn (i * M) (repeat 0%N n)). apply in_app_iff. right.
      rewrite <- (firstn_skipn ((i + 1) * M - i * M) (skipn (i * M) (repeat 0%N n))). apply in_app_iff. auto. }
    clearbody w. rewrite scan_ok by (auto; lia). f_equal. rewrite (proj2 (length_zero_iff_nil _)); [reflexivity|].
    assert (Hno : forall p, occb B w p = false).
    { intros p. destruct (occb B w p) eqn:E; [|reflexivity]. exfalso. unfold occb in E. apply eqlist_iff in E.
      assert (Bz : forall x, In x B -> x = 0%N).
      { intros x Hx. apply Zw. rewrite <- E in Hx. unfold pyslice in Hx. rewrite <- (firstn_skipn p w). apply in_app_iff. right.
        rewrite <- (firstn_skipn (p + length B - p) (skipn p w)). apply in_app_iff. auto. }
      apply (HU 1); [lia|]. clear - Bz HL. apply (list_ext _ 0%N).
      - rewrite firstn_length, skipn_length. lia.
      - intros j Hj. rewrite firstn_length in Hj.
        assert (Z1 : forall l, (forall x, In x l -> x = 0%N) -> forall k, nth k l 0%N = 0%N).
        { intros l Hl k. destruct (Nat.lt_ge_cases k (length l)); [apply Hl, nth_In; auto|apply nth_overflow; auto]. }
        rewrite !Z1; [reflexivity| |]; intros x Hx; apply Bz.
        + rewrite <- (firstn_skipn 1 B). apply in_app_iff. auto.
        + rewrite <- (firstn_skipn (length B - 1) B). apply in_app_iff. auto. }
    clear - Hno. generalize (seq 0 (M - length B - 0)). intros s. induction s as [|a s IH]; [reflexivity|]. cbn [filter]. rewrite Hno. exact IH. }
  assert (W : wp (for_up 0 8 (fun i W => c <- scan (M + 1) B (pyslice (repeat 0%N n) (i * M) ((i + 1) * M)) M 0 0 ;; Ok (W ++ [c])) []) (fun W => W = repeat 0 8)).
  { apply (wp_for_up _ (fun t W => W = repeat 0 t)); [lia|reflexivity| |auto]. intros i W _ Hi ->. rewrite Hs by exact Hi. cbn [bind]. apply wp_ok.
    rewrite <- repeat_cons. reflexivity. }
  apply wp_exists in W as (W & -> & ->). reflexivity.
Qed.
