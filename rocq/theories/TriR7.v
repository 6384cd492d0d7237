(** Triangular systems with the upper triangular matrix on the right, and the inversion of large
    triangular matrices. *)
From Coq Require Import Arith NArith ZArith List Bool Lia ZifyNat.
From Verif Require Import Base Spec LinAlg ModelM4ri SpecM4ri M4ri1 M4riD ModelM4ri2 SpecM4ri2 M4ri9 M4ri14 M4ri19
  ModelStrassen SpecStrassen Strassen1 Strassen3 Strassen4 ModelTri SpecTri Tri1 Tri2 Tri3 ModelPle Ple3 ModelTriR TriR1 TriR2 TriR6.
Import ListNotations.
Local Open Scope nat_scope.
#[local] Ltac Zify.zify_post_hook ::= Z.to_euclidean_division_equations.

Lemma extract_u_ok : forall C A (Q : mzd -> Prop), okm C C A ->
  (forall U, okm C C U -> (forall i j, i < C -> j < C -> bitat U i j = if Nat.ltb j i then false else bitat A i j) -> Q U) -> wp (mzd_extract_u A) Q.
Proof.
  intros C A Q HA HQ. unfold mzd_extract_u. rewrite (proj1 HA), (proj1 (proj2 HA)), Nat.min_id. cbv zeta.
  apply wp_bind, (wp_submatrix C C); [exact HA|lia|lia|lia|lia|left; reflexivity|]. rewrite !Nat.sub_0_r. intros S0 HS ES.
  assert (HI : okm C C S0 /\ forall i j, i < C -> j < C -> bitat S0 i j = if Nat.ltb i 1 && Nat.ltb j i then false else bitat A i j).
  { split; [exact HS|]. intros i j Hi Hj. rewrite ES by assumption. destruct (Nat.ltb_spec i 1), (Nat.ltb_spec j i); try lia; reflexivity. }
  destruct (Nat.le_gt_cases C 1) as [H1|H1].
  { assert (EF : forall body, for_up 1 C body S0 = Ok S0) by (intros body; unfold for_up; replace (C - 1) with 0 by lia; reflexivity).
    rewrite EF. apply wp_ok, HQ; [exact HS|]. intros i j Hi Hj. rewrite ES by assumption. destruct (Nat.ltb_spec j i); [lia|reflexivity]. }
  apply (wp_for_up _ (fun t U => okm C C U /\ forall i j, i < C -> j < C -> bitat U i j = if Nat.ltb i t && Nat.ltb j i then false else bitat A i j)); [lia|exact HI| |].
  - clear S0 HS ES HI. intros t U Ht1 Ht2 [HU EU].
    apply wp_bind, (wp_for_up _ (fun w M => okm C C M /\ forall i j, i < C -> j < C -> bitat M i j = if Nat.eqb i t && Nat.ltb j (64 * w) then false else bitat U i j)); [lia| | |].
    + split; [exact HU|]. intros i j _ _. destruct (Nat.ltb_spec j (64 * 0)); [lia|]. rewrite andb_false_r. reflexivity.
    + intros w M _ Hw [HM EM]. apply (wp_wset C C); [exact HM|exact Ht2|pose proof (wwidth_lt C t Ht2); lia|intros b; rewrite tb_0; discriminate|].
      intros M' HM' EM'. split; [exact HM'|]. intros i j Hi Hj. rewrite EM', EM by assumption. rewrite tb_0.
      destruct (Nat.eqb_spec i t); cbn [andb]; [|reflexivity]. destruct (Nat.eqb_spec (j / 64) w), (Nat.ltb_spec j (64 * w)), (Nat.ltb_spec j (64 * S w)); try lia; reflexivity.
    + intros M [HM EM]. assert (F : forall M', okm C C M' -> (forall i j, i < C -> j < C -> bitat M' i j = if Nat.eqb i t && Nat.ltb j t then false else bitat U i j) ->
        okm C C M' /\ forall i j, i < C -> j < C -> bitat M' i j = if Nat.ltb i (S t) && Nat.ltb j i then false else bitat A i j).
      { intros M' HM' EM'. split; [exact HM'|]. intros i j Hi Hj. rewrite EM', EU by assumption.
        destruct (Nat.eqb_spec i t) as [->|]; cbn [andb]; [destruct (Nat.ltb_spec t (S t)), (Nat.ltb_spec t t); try lia; cbn [andb]; reflexivity|].
        destruct (Nat.ltb_spec i t), (Nat.ltb_spec i (S t)); try lia; reflexivity. }
      destruct (Nat.eqb_spec (t mod 64) 0) as [E0|E0].
      * apply wp_ok, F; [exact HM|]. intros i j Hi Hj. rewrite EM by assumption. replace (64 * (t / 64)) with t by lia. reflexivity.
      * replace (t / 64 * 64) with (64 * (t / 64)) by lia. apply (clear_word_ok C C); [exact HM|exact Ht2|lia|lia|lia|]. intros M' HM' EM'. apply F; [exact HM'|].
        intros i j Hi Hj. rewrite EM', EM by assumption. destruct (Nat.eqb_spec i t); cbn [andb]; [|reflexivity].
        destruct (Nat.leb_spec (64 * (t / 64)) j), (Nat.ltb_spec j (64 * (t / 64) + t mod 64)), (Nat.ltb_spec j (64 * (t / 64))), (Nat.ltb_spec j t); try lia; reflexivity.
  - intros U [HU EU]. apply HQ; [exact HU|]. intros i j Hi Hj. rewrite EU by assumption. destruct (Nat.ltb_spec i C); [reflexivity|lia].
Qed.

Lemma upper_right_halves : forall R C c1 (T B X0 X1 P1 T00 T11 X : fmat), c1 <= C ->
  same R c1 (fmul c1 X0 (unit_upper T00)) B -> same R (C - c1) (fmul (C - c1) X1 (unit_upper T11)) P1 ->
  (forall i j, i < c1 -> j < c1 -> T00 i j = T i j) ->
  (forall i j, i < C - c1 -> j < C - c1 -> T11 i j = T (c1 + i) (c1 + j)) ->
  same R (C - c1) P1 (fun i j => xorb (B i (c1 + j)) (xsum c1 (fun k => X0 i k && T k (c1 + j)))) ->
  (forall i j, i < R -> j < C -> X i j = if Nat.ltb j c1 then X0 i j else X1 i (j - c1)) ->
  same R C (fmul C X (unit_upper T)) B.
Proof.
  intros R C c1 T B X0 X1 P1 T00 T11 X Hc1 H0 H1 E00 E11 EP EX i j Hi Hjj. unfold fmul.
  replace C with (c1 + (C - c1)) at 1 by lia. rewrite xsum_add.
  rewrite (xsum_ext c1 _ (fun k => X0 i k && unit_upper T k j)) by (intros k Hk; rewrite EX by lia; destruct (Nat.ltb_spec k c1); [reflexivity|lia]).
  rewrite (xsum_ext (C - c1) _ (fun k => X1 i k && unit_upper T (c1 + k) j)) by (intros k Hk; rewrite EX by lia; destruct (Nat.ltb_spec (c1 + k) c1); [lia|f_equal; f_equal; lia]).
  destruct (Nat.ltb_spec j c1).
  - rewrite (xsum_false (C - c1)).
    2:{ intros k Hk. unfold unit_upper. destruct (Nat.ltb_spec (c1 + k) j); [lia|]. destruct (Nat.eqb_spec (c1 + k) j); [lia|apply andb_false_r]. }
    rewrite xorb_false_r. specialize (H0 i j Hi ltac:(assumption)). rewrite <- H0. unfold fmul.
    apply xsum_ext. intros k Hk. f_equal. unfold unit_upper. rewrite E00 by lia. reflexivity.
  - specialize (H1 i (j - c1) Hi ltac:(lia)). specialize (EP i (j - c1) Hi ltac:(lia)). unfold fmul in H1. cbv beta in EP. rewrite EP in H1.
    replace (c1 + (j - c1)) with j in H1 by lia.
    rewrite (xsum_ext (C - c1) _ (fun k => X1 i k && unit_upper T11 k (j - c1))).
    2:{ intros k Hk. f_equal. unfold unit_upper. rewrite E11 by lia. replace (c1 + (j - c1)) with j by lia.
        destruct (Nat.ltb_spec (c1 + k) j), (Nat.ltb_spec k (j - c1)), (Nat.eqb_spec (c1 + k) j), (Nat.eqb_spec k (j - c1)); try lia; reflexivity. }
    rewrite H1. rewrite (xsum_ext c1 (fun k => X0 i k && unit_upper T k j) (fun k => X0 i k && T k j)).
    2:{ intros k Hk. f_equal. unfold unit_upper. destruct (Nat.ltb_spec k j); [reflexivity|lia]. }
    rewrite xorb_comm, xorb_assoc, xorb_nilpotent. apply xorb_false_r.
Qed.

(** [trtri] inverts the unit upper triangular m x m matrices *)
Definition inverts (m : nat) (trtri : mzd -> res mzd) : Prop :=
  forall V, okm m m V -> (forall i j, i < m -> j < m -> bitat V i j = unit_upper (bitat V) i j) ->
  wp (trtri V) (fun X => okm m m X /\ (forall i j, i < m -> j < m -> fmul m (bitat X) (bitat V) i j = fid i j) /\
                         (forall i j, i < m -> j < m -> bitat X i j = unit_upper (bitat X) i j)).

Section Rec.
Variables (kcache : nat) (junk : nat -> list N).
Hypothesis Hj : junk_ok junk.

Lemma upper_right_trtri_ok : forall trtri R C T B (Q : mzd -> Prop), inverts C trtri -> 1 <= C -> okm C C T -> okm R C B ->
  fits R C -> fits C C -> (forall i, i < C -> bitat T i i = true) ->
  (forall M, rsol R C (unit_upper (bitat T)) (bitat B) M -> Q M) -> wp (upper_right_trtri kcache junk trtri T B) Q.
Proof.
  intros trtri R C T B Q HI HC HT HB F0 F1 HD HQ. unfold upper_right_trtri. apply wp_bind, (extract_u_ok C); [exact HT|]. intros u Hu Eu.
  assert (EU : forall i j, i < C -> j < C -> bitat u i j = unit_upper (bitat T) i j).
  { intros i j Hi Hjj. rewrite Eu by assumption. unfold unit_upper. destruct (Nat.ltb_spec j i), (Nat.ltb_spec i j), (Nat.eqb_spec i j); try lia; try reflexivity. subst. apply HD. assumption. }
  apply wp_bind. eapply wp_mono; [apply HI; [exact Hu|]|].
  { intros i j Hi Hjj. rewrite EU by assumption. unfold unit_upper. destruct (Nat.ltb_spec i j); [|reflexivity]. rewrite EU by assumption. unfold unit_upper. destruct (Nat.ltb_spec i j); [reflexivity|lia]. }
  intros V (HV & EV & _).
  destruct (mul_top kcache junk Hj false R C C None B V 0 HB HV) as (P & EP & HP & QP); [discriminate|exact HC|exact F0|exact F1|exact F1|reflexivity|unfold cuts; lia|unfold cuts; lia|unfold cuts; lia|].
  rewrite EP. cbn [bind]. apply (wp_copy_onto R C); [exact HB|exact HP|lia|]. intros M HM EM. apply HQ. split; [exact HM|].
  intros i j Hi Hjj. unfold fmul. rewrite (xsum_ext C _ (fun k => xsum C (fun l => bitat B i l && (bitat V l k && bitat u k j)))).
  2:{ intros k Hk. rewrite EM, QP by assumption. rewrite <- EU by assumption. unfold fmul. rewrite <- xsum_andb_r. apply xsum_ext. intros l _. symmetry. apply andb_assoc. }
  rewrite xsum_swap. rewrite (xsum_ext C _ (fun l => bitat B i l && fid l j)).
  - apply xsum_fid_r. exact Hjj.
  - intros l Hl. rewrite xsum_andb_l. f_equal. apply EV; assumption.
Qed.

Lemma trsm_upper_right_ok : forall trtri cutoff, (N.of_nat cutoff < 2 ^ 29)%N -> forall fuel R C T B (Q : mzd -> Prop), C < fuel -> (forall m, 64 < m -> m <= 512 -> m <= C -> inverts m trtri) ->
  okm C C T -> okm R C B -> fits R C -> fits C C -> cutoff = 0 \/ 128 <= cutoff \/ R < 128 -> (64 < C -> forall i, i < C -> bitat T i i = true) ->
  (forall M, rsol R C (unit_upper (bitat T)) (bitat B) M -> Q M) -> wp (trsm_upper_right kcache junk trtri fuel cutoff T B) Q.
Proof.
  intros trtri cutoff Hc. induction fuel as [|fuel IH]; intros R C T B Q Hf HI HT HB F0 F1 HK HD HQ; [lia|]. cbn [trsm_upper_right].
  pose proof HB as (B1 & B2 & _). rewrite B1, B2. cbv zeta.
  destruct (Nat.leb_spec C 64) as [H64|H64]; [apply (upper_right_base_ok R C); try assumption; apply okm_okd; exact HT|].
  specialize (HD H64). destruct (Nat.leb_spec C 512) as [H512|H512]; [apply (upper_right_trtri_ok trtri R C); try assumption; [apply HI; lia|lia]|].
  destruct (cut_right C H64) as (C1 & C2 & C3). set (c1 := tri_cut C) in *. clearbody c1.
  apply wp_bind, (wp_win R C B 0 0 R c1 R c1); [exact HB|split; lia|lia|lia|lia|]. intros B0 HB0 EB0.
  apply wp_bind, (wp_win R C B 0 c1 R C R (C - c1)); [exact HB|split; lia|lia|lia|lia|]. intros B1' HB1 EB1.
  apply wp_bind, (wp_win C C T 0 0 c1 c1 c1 c1); [exact HT|split; lia|lia|lia|lia|]. intros U00 H00 E00.
  apply wp_bind, (wp_win C C T 0 c1 c1 C c1 (C - c1)); [exact HT|split; lia|lia|lia|lia|]. intros U01 H01 E01.
  apply wp_bind, (wp_win C C T c1 c1 C C (C - c1) (C - c1)); [exact HT|split; lia|lia|lia|lia|]. intros U11 H11 E11.
  apply wp_bind, (IH R c1); [lia|intros m Hm1 Hm2 Hm3; apply HI; lia|exact H00|exact HB0|eapply fits_le; [exact F0| |]; lia|eapply fits_le; [exact F1| |]; lia|exact HK| |].
  { intros _ i Hi. rewrite E00 by assumption. apply HD. lia. }
  intros X0 [OX0 SX0].
  destruct (addmul_top kcache junk Hj true R c1 (C - c1) (Some B1') X0 U01 cutoff (okm_okd _ _ _ OX0) H01) as (P1 & EP1 & HP1 & QP1).
  { intros M [= <-]. exact HB1. }
  { eapply fits_le; [exact F0| |]; lia. }
  { eapply fits_le; [exact F1| |]; lia. }
  { eapply fits_le; [exact F1| |]; lia. }
  { exact Hc. }
  { destruct HK as [HK|[HK|HK]]; [left; unfold cuts; lia|left; unfold cuts; lia|right; left; exact HK]. }
  rewrite EP1. cbn [bind].
  apply wp_bind, (IH R (C - c1)); [lia|intros m Hm1 Hm2 Hm3; apply HI; lia|exact H11|exact HP1|eapply fits_le; [exact F0| |]; lia|eapply fits_le; [exact F1| |]; lia|exact HK| |].
  { intros _ i Hi. rewrite E11 by assumption. apply HD. lia. }
  intros X1 [OX1 SX1]. apply wp_ok, HQ.
  destruct (two_cols R C c1 B X0 X1 HB OX0 OX1 C1 ltac:(lia)) as [HP EP]. split; [exact HP|].
  apply (upper_right_halves R C c1 (bitat T) (bitat B) (bitat X0) (bitat X1) (bitat P1) (bitat U00) (bitat U11)); try lia; try assumption.
  - intros i j Hi Hjj. rewrite SX0 by assumption. apply EB0; assumption.
  - intros i j Hi Hjj. rewrite QP1 by assumption. cbn [before]. rewrite EB1 by assumption. cbn [Nat.add]. f_equal. unfold fmul.
    apply xsum_ext. intros k Hk. rewrite E01 by assumption. reflexivity.
Qed.

(** ** mzd_trtri_upper *)
Variables (l3 : N) (v : N).
Hypothesis Hl3 : (2 ^ 16 <= l3)%N.

Lemma trtri_upper_ok : forall fuel n, n < fuel -> (N.of_nat n * N.of_nat n < 2 ^ 31)%N -> fits n n -> inverts n (trtri_upper l3 (Some v) kcache junk fuel).
Proof.
  induction fuel as [|fuel IH]; intros n Hf Hp F U HU EU; [lia|]. cbn [trtri_upper].
  pose proof HU as (U1 & U2 & _). rewrite U1, U2. cbv zeta. destruct (N.leb_spec (2 ^ 31) (N.of_nat n * N.of_nat n)); [lia|].
  destruct (N.ltb_spec (N.of_nat n * N.of_nat n) (2 * l3)) as [Hs|Hs].
  { apply (trtri_upper_russian_ok l3 (Some v) n); [exact HU|exact Hl3|left; discriminate|exact EU|]. intros X HX E1 E2. split; [exact HX|]. split; [exact E1|exact E2]. }
  assert (Hn : 128 < n).
  { destruct (Nat.lt_ge_cases 128 n) as [|G]; [assumption|]. exfalso. assert (N.of_nat n * N.of_nat n <= 128 * 128)%N by (apply N.mul_le_mono; lia). change (2 ^ 16)%N with 65536%N in Hl3. lia. }
  destruct (cut_right n ltac:(lia)) as (C1 & C2 & C3). set (c1 := tri_cut n) in *. clearbody c1.
  assert (IHm : forall m, m < n -> inverts m (trtri_upper l3 (Some v) kcache junk fuel)).
  { intros m Hm. apply IH; [lia| |eapply fits_le; [exact F| |]; lia]. eapply N.le_lt_trans; [|exact Hp]. apply N.mul_le_mono; lia. }
  apply wp_bind, (wp_win n n U 0 0 c1 c1 c1 c1); [exact HU|split; lia|lia|lia|lia|]. intros U00 H00 E00.
  apply wp_bind, (wp_win n n U 0 c1 c1 n c1 (n - c1)); [exact HU|split; lia|lia|lia|lia|]. intros U01 H01 E01.
  apply wp_bind, (wp_win n n U c1 c1 n n (n - c1) (n - c1)); [exact HU|split; lia|lia|lia|lia|]. intros U11 H11 E11.
  rewrite (proj1 H01).
  apply wp_bind, (trsm_upper_ok kcache junk 0 Hj eq_refl (or_introl eq_refl) _ c1 (n - c1)); [lia|lia|apply okm_okd; exact H00|exact H01|eapply fits_le; [exact F| |]; lia|eapply fits_le; [exact F| |]; lia|eapply fits_le; [exact F| |]; lia|].
  intros Z [HZ EZ]. rewrite (proj1 (proj2 HZ)).
  apply wp_bind, (trsm_upper_right_ok _ 0 eq_refl _ c1 (n - c1)); [lia|intros m _ _ Hm; apply IHm; lia|exact H11|exact HZ|eapply fits_le; [exact F| |]; lia|eapply fits_le; [exact F| |]; lia|left; reflexivity| |].
  { intros _ i Hi. rewrite E11 by assumption. rewrite EU by lia. unfold unit_upper. destruct (Nat.ltb_spec (c1 + i) (c1 + i)); [lia|]. apply Nat.eqb_refl. }
  intros Y [HY EY].
  assert (D00 : forall i j, i < c1 -> j < c1 -> bitat U00 i j = unit_upper (bitat U00) i j).
  { intros i j Hi Hjj. rewrite E00 by assumption. rewrite EU by lia. unfold unit_upper. rewrite E00 by assumption. reflexivity. }
  assert (D11 : forall i j, i < n - c1 -> j < n - c1 -> bitat U11 i j = unit_upper (bitat U11) i j).
  { intros i j Hi Hjj. rewrite E11 by assumption. rewrite EU by lia. unfold unit_upper. rewrite E11 by assumption.
    destruct (Nat.ltb_spec (c1 + i) (c1 + j)), (Nat.ltb_spec i j), (Nat.eqb_spec (c1 + i) (c1 + j)), (Nat.eqb_spec i j); try lia; reflexivity. }
  apply wp_bind. eapply wp_mono; [apply (IHm c1); [lia|exact H00|exact D00]|]. intros X00 (HX0 & EX0 & TX0).
  apply wp_bind. eapply wp_mono; [apply (IHm (n - c1)); [lia|exact H11|exact D11]|]. intros X11 (HX1 & EX1 & TX1).
  apply wp_ok.
  destruct (put_ok n n U X00 0 0 c1 c1 HU HX0 ltac:(split; lia) ltac:(lia)) as [P1 Q1].
  destruct (put_ok n n _ Y 0 c1 c1 (n - c1) P1 HY ltac:(split; lia) ltac:(lia)) as [P2 Q2].
  destruct (put_ok n n _ X11 c1 c1 (n - c1) (n - c1) P2 HX1 ltac:(split; lia) ltac:(lia)) as [P3 Q3].
  set (X := put (put (put U X00 0 0) Y 0 c1) X11 c1 c1) in *.
  assert (EX : forall i j, i < n -> j < n -> bitat X i j = if Nat.ltb i c1 then (if Nat.ltb j c1 then bitat X00 i j else bitat Y i (j - c1)) else if Nat.ltb j c1 then false else bitat X11 (i - c1) (j - c1)).
  { intros i j Hi Hjj. rewrite Q3, Q2, Q1 by assumption. rewrite !Nat.sub_0_r, !Nat.add_0_l.
    repeat match goal with |- context [Nat.ltb ?a ?b] => destruct (Nat.ltb_spec a b) | |- context [Nat.leb ?a ?b] => destruct (Nat.leb_spec a b) end; cbn [andb]; try lia; try reflexivity.
    rewrite EU by assumption. unfold unit_upper. destruct (Nat.ltb_spec i j); [lia|]. apply Nat.eqb_neq. lia. }
  split; [exact P3|]. split.
  - intros i j Hi Hjj. unfold fmul. replace n with (c1 + (n - c1)) at 1 by lia. rewrite xsum_add.
    assert (ZL : forall a b, a < n -> b < a -> bitat U a b = false).
    { intros a b Ha Hb. rewrite EU by lia. unfold unit_upper. destruct (Nat.ltb_spec a b); [lia|]. apply Nat.eqb_neq. lia. }
    destruct (Nat.lt_ge_cases i c1) as [Hi1|Hi1], (Nat.lt_ge_cases j c1) as [Hj1|Hj1].
    + rewrite (xsum_false (n - c1)) by (intros k Hk; rewrite (ZL (c1 + k) j) by lia; apply andb_false_r). rewrite xorb_false_r.
      rewrite <- (EX0 i j Hi1 Hj1). apply xsum_ext. intros k Hk. rewrite EX, E00 by lia. destruct (Nat.ltb_spec i c1), (Nat.ltb_spec k c1); try lia. reflexivity.
    + assert (G : xsum (n - c1) (fun k => bitat X i (c1 + k) && bitat U (c1 + k) j) = bitat Z i (j - c1)).
      { rewrite <- (EY i (j - c1) Hi1 ltac:(lia)). unfold fmul. apply xsum_ext. intros k Hk. rewrite EX by lia. destruct (Nat.ltb_spec i c1), (Nat.ltb_spec (c1 + k) c1); try lia.
        replace (c1 + k - c1) with k by lia. rewrite <- D11, E11 by lia. replace (c1 + (j - c1)) with j by lia. reflexivity. }
      rewrite G.
      assert (G2 : forall a, a < c1 -> bitat U a j = xsum c1 (fun k => bitat U00 a k && bitat Z k (j - c1))).
      { intros a Ha. specialize (EZ a (j - c1) Ha ltac:(lia)). rewrite E01 in EZ by lia. replace (c1 + (j - c1)) with j in EZ by lia. rewrite Nat.add_0_l in EZ. rewrite <- EZ.
        rewrite <- unit_upper_sum by exact Ha. unfold fmul. apply xsum_ext. intros k Hk. rewrite D00 by assumption. reflexivity. }
      rewrite (xsum_ext c1 _ (fun a => xsum c1 (fun k => bitat X00 i a && bitat U00 a k && bitat Z k (j - c1)))).
      2:{ intros a Ha. rewrite EX by lia. destruct (Nat.ltb_spec i c1), (Nat.ltb_spec a c1); try lia. rewrite G2 by exact Ha. rewrite <- xsum_andb_l. apply xsum_ext. intros k _. apply andb_assoc. }
      rewrite xsum_swap. rewrite (xsum_ext c1 _ (fun k => fid i k && bitat Z k (j - c1))).
      2:{ intros k Hk. rewrite xsum_andb_r. f_equal. apply EX0; assumption. }
      rewrite xsum_fid_l by exact Hi1. rewrite xorb_nilpotent. unfold fid. symmetry. apply Nat.eqb_neq. lia.
    + rewrite (xsum_false c1) by (intros k Hk; rewrite EX by lia; destruct (Nat.ltb_spec i c1), (Nat.ltb_spec k c1); try lia; reflexivity).
      rewrite (xsum_false (n - c1)) by (intros k Hk; rewrite (ZL (c1 + k) j) by lia; apply andb_false_r). unfold fid. symmetry. apply Nat.eqb_neq. lia.
    + rewrite (xsum_false c1) by (intros k Hk; rewrite EX by lia; destruct (Nat.ltb_spec i c1), (Nat.ltb_spec k c1); try lia; reflexivity). rewrite xorb_false_l.
      transitivity (fid (i - c1) (j - c1)); [|unfold fid; destruct (Nat.eqb_spec (i - c1) (j - c1)), (Nat.eqb_spec i j); try lia; reflexivity].
      rewrite <- EX1 by lia. apply xsum_ext. intros k Hk. rewrite EX, E11 by lia. destruct (Nat.ltb_spec i c1), (Nat.ltb_spec (c1 + k) c1); try lia.
      replace (c1 + k - c1) with k by lia. replace (c1 + (j - c1)) with j by lia. reflexivity.
  - intros i j Hi Hjj. rewrite EX by assumption. unfold unit_upper. destruct (Nat.ltb_spec i j) as [L|L]; [rewrite EX by assumption; reflexivity|].
    destruct (Nat.ltb_spec i c1), (Nat.ltb_spec j c1); try lia.
    + rewrite TX0 by assumption. unfold unit_upper. destruct (Nat.ltb_spec i j); [lia|reflexivity].
    + symmetry. apply Nat.eqb_neq. lia.
    + rewrite TX1 by lia. unfold unit_upper. destruct (Nat.ltb_spec (i - c1) (j - c1)); [lia|]. destruct (Nat.eqb_spec (i - c1) (j - c1)), (Nat.eqb_spec i j); try lia; reflexivity.
Qed.
End Rec.
