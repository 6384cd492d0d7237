(** Triangular systems with the matrix on the right: the recursion *)
From Coq Require Import Arith NArith ZArith List Bool Lia ZifyNat.
From Verif Require Import Base Spec LinAlg ModelM4ri SpecM4ri M4ri1 M4riD ModelM4ri2 SpecM4ri2 M4ri9 M4ri14 M4ri19
  ModelStrassen SpecStrassen Strassen1 Strassen3 Strassen4 ModelTri SpecTri Tri1 Tri2 Tri3 ModelPle ModelTriR TriR1.
Import ListNotations.
Local Open Scope nat_scope.
#[local] Ltac Zify.zify_post_hook ::= Z.to_euclidean_division_equations.

Lemma okd_full : forall R C M, okd R C M -> C mod 64 = 0 -> okm R C M.
Proof.
  intros R C M (H1 & H2 & H3 & H4) HC. refine (conj H1 (conj H2 (conj H3 _))). intros i Hi. destruct (H4 i Hi) as [L W]. split; [exact L|].
  intros k b E. assert (Hk : k < wwidth C).
  { destruct (Nat.lt_ge_cases k (wwidth C)) as [?|G]; [assumption|]. unfold rw in E. rewrite nth_overflow in E by lia. rewrite tb_0 in E. discriminate. }
  specialize (W k b E). split; [exact W|]. unfold wwidth in Hk. lia.
Qed.

Lemma cut_right : forall nb, 64 < nb -> tri_cut nb mod 64 = 0 /\ 64 <= tri_cut nb /\ tri_cut nb < nb.
Proof. intros nb H. unfold tri_cut. split; [apply Nat.mod_mul; lia|]. lia. Qed.

Lemma two_cols : forall R C c1 B X0 X1, okm R C B -> okm R c1 X0 -> okm R (C - c1) X1 -> c1 mod 64 = 0 -> c1 <= C ->
  okm R C (put (put B X0 0 0) X1 0 c1) /\
  forall i j, i < R -> j < C -> bitat (put (put B X0 0 0) X1 0 c1) i j = if Nat.ltb j c1 then bitat X0 i j else bitat X1 i (j - c1).
Proof.
  intros R C c1 B X0 X1 HB H0 H1 Hc1 Hc.
  destruct (put_ok R C B X0 0 0 R c1 HB H0 ltac:(split; lia) ltac:(lia)) as [P1 E1].
  destruct (put_ok R C _ X1 0 c1 R (C - c1) P1 H1 ltac:(split; lia) ltac:(lia)) as [P2 E2].
  split; [exact P2|]. intros i j Hi Hjj. rewrite E2, E1 by assumption. rewrite !Nat.sub_0_r, !Nat.add_0_l.
  repeat match goal with |- context [Nat.ltb ?a ?b] => destruct (Nat.ltb_spec a b) | |- context [Nat.leb ?a ?b] => destruct (Nat.leb_spec a b) end;
  cbn [andb]; lia || reflexivity.
Qed.

Section Rec.
Variables (kcache : nat) (junk : nat -> list N) (cutoff : nat).
Hypothesis Hj : junk_ok junk.
Hypothesis Hc : (N.of_nat cutoff < 2 ^ 29)%N.

Lemma lower_right_halves : forall R C c1 (T B X0 X1 P0 T00 T11 X : fmat), c1 <= C ->
  same R c1 (fmul c1 X0 (unit_lower T00)) P0 -> same R (C - c1) (fmul (C - c1) X1 (unit_lower T11)) (fun i j => B i (c1 + j)) ->
  (forall i j, i < c1 -> j < c1 -> T00 i j = T i j) ->
  (forall i j, i < C - c1 -> j < C - c1 -> T11 i j = T (c1 + i) (c1 + j)) ->
  same R c1 P0 (fun i j => xorb (B i j) (xsum (C - c1) (fun k => X1 i k && T (c1 + k) j))) ->
  (forall i j, i < R -> j < C -> X i j = if Nat.ltb j c1 then X0 i j else X1 i (j - c1)) ->
  same R C (fmul C X (unit_lower T)) B.
Proof.
  intros R C c1 T B X0 X1 P0 T00 T11 X Hc1 H0 H1 E00 E11 EP EX i j Hi Hjj. unfold fmul.
  replace C with (c1 + (C - c1)) at 1 by lia. rewrite xsum_add.
  rewrite (xsum_ext c1 _ (fun k => X0 i k && unit_lower T k j)) by (intros k Hk; rewrite EX by lia; destruct (Nat.ltb_spec k c1); [reflexivity|lia]).
  rewrite (xsum_ext (C - c1) _ (fun k => X1 i k && unit_lower T (c1 + k) j)) by (intros k Hk; rewrite EX by lia; destruct (Nat.ltb_spec (c1 + k) c1); [lia|f_equal; f_equal; lia]).
  destruct (Nat.ltb_spec j c1).
  - specialize (H0 i j Hi ltac:(assumption)). specialize (EP i j Hi ltac:(assumption)). unfold fmul in H0. cbv beta in EP. rewrite EP in H0.
    rewrite (xsum_ext c1 _ (fun k => X0 i k && unit_lower T00 k j)) by (intros k Hk; f_equal; unfold unit_lower; rewrite E00 by lia; reflexivity). rewrite H0.
    rewrite (xsum_ext (C - c1) (fun k => X1 i k && unit_lower T (c1 + k) j) (fun k => X1 i k && T (c1 + k) j)).
    2:{ intros k Hk. f_equal. unfold unit_lower. destruct (Nat.ltb_spec j (c1 + k)); [reflexivity|lia]. }
    rewrite xorb_assoc, xorb_nilpotent. apply xorb_false_r.
  - rewrite xsum_false.
    2:{ intros k Hk. unfold unit_lower. destruct (Nat.ltb_spec j k); [lia|]. destruct (Nat.eqb_spec k j); [lia|apply andb_false_r]. }
    rewrite xorb_false_l. specialize (H1 i (j - c1) Hi ltac:(lia)). cbv beta in H1. replace (c1 + (j - c1)) with j in H1 by lia. rewrite <- H1. unfold fmul.
    apply xsum_ext. intros k Hk. f_equal. unfold unit_lower. rewrite E11 by lia. replace (c1 + (j - c1)) with j by lia.
    destruct (Nat.ltb_spec j (c1 + k)), (Nat.ltb_spec (j - c1) k), (Nat.eqb_spec (c1 + k) j), (Nat.eqb_spec k (j - c1)); try lia; reflexivity.
Qed.

Lemma trsm_lower_right_ok : forall fuel R C T B (Q : mzd -> Prop), C < fuel -> okd C C T -> okm R C B ->
  fits R C -> fits C C -> cutoff = 0 \/ 128 <= cutoff \/ R < 128 ->
  (forall M, rsol R C (unit_lower (bitat T)) (bitat B) M -> Q M) -> wp (trsm_lower_right kcache junk fuel cutoff T B) Q.
Proof.
  induction fuel as [|fuel IH]; intros R C T B Q Hf HT HB F0 F1 HK HQ; [lia|]. cbn [trsm_lower_right].
  pose proof HB as (B1 & B2 & _). rewrite B1, B2. cbv zeta.
  destruct (Nat.leb_spec C 64) as [H64|H64]; [apply (lower_right_base_ok R C); assumption|].
  destruct (cut_right C H64) as (C1 & C2 & C3). set (c1 := tri_cut C) in *. clearbody c1.
  apply wp_bind, (wp_win R C B 0 0 R c1 R c1); [exact HB|split; lia|lia|lia|lia|]. intros B0 HB0 EB0.
  apply wp_bind, (wp_win R C B 0 c1 R C R (C - c1)); [exact HB|split; lia|lia|lia|lia|]. intros B1' HB1 EB1.
  apply wp_bind, (wp_wind C C T 0 0 c1 c1 c1 c1); [exact HT|lia|lia|lia|lia|lia|]. intros L00 H00 _ E00.
  apply wp_bind, (wp_wind C C T c1 0 C c1 (C - c1) c1); [exact HT|lia|lia|lia|lia|lia|]. intros L10 H10 _ E10.
  apply wp_bind, (wp_wind C C T c1 c1 C C (C - c1) (C - c1)); [exact HT|lia|lia|lia|lia|lia|]. intros L11 H11 _ E11.
  apply wp_bind, (IH R (C - c1)); [lia|exact H11|exact HB1|eapply fits_le; [exact F0| |]; lia|eapply fits_le; [exact F1| |]; lia|exact HK|].
  intros X1 [OX1 SX1].
  destruct (addmul_top kcache junk Hj true R (C - c1) c1 (Some B0) X1 L10 cutoff (okm_okd _ _ _ OX1) (okd_full _ _ _ H10 C1)) as (P0 & EP0 & HP0 & QP0).
  { intros M [= <-]. exact HB0. }
  { eapply fits_le; [exact F0| |]; lia. }
  { eapply fits_le; [exact F1| |]; lia. }
  { eapply fits_le; [exact F1| |]; lia. }
  { exact Hc. }
  { destruct HK as [HK|[HK|HK]]; [left; unfold cuts; lia|left; unfold cuts; lia|right; left; exact HK]. }
  rewrite EP0. cbn [bind].
  apply wp_bind, (IH R c1); [lia|exact H00|exact HP0|eapply fits_le; [exact F0| |]; lia|eapply fits_le; [exact F1| |]; lia|exact HK|].
  intros X0 [OX0 SX0]. apply wp_ok, HQ.
  destruct (two_cols R C c1 B X0 X1 HB OX0 OX1 C1 ltac:(lia)) as [HP EP]. split; [exact HP|].
  apply (lower_right_halves R C c1 (bitat T) (bitat B) (bitat X0) (bitat X1) (bitat P0) (bitat L00) (bitat L11)); try lia; try assumption.
  - intros i j Hi Hjj. rewrite SX1 by assumption. apply EB1; assumption.
  - intros i j Hi Hjj. rewrite QP0 by assumption. cbn [before]. rewrite EB0 by assumption. cbn [Nat.add]. f_equal. unfold fmul.
    apply xsum_ext. intros k Hk. rewrite E10 by assumption. reflexivity.
Qed.
End Rec.
