(** Triangular systems: the recursion *)
From Coq Require Import Arith NArith ZArith List Bool Lia ZifyNat.
From Verif Require Import Base Spec LinAlg ModelM4ri SpecM4ri M4ri1 M4riD M4ri2 M4ri3 M4ri4 M4ri5 ModelM4ri2 M4ri9 M4ri11 M4ri14 M4ri16 M4ri17
  ModelStrassen Strassen1 Strassen3 Strassen4 ModelTri SpecTri Tri1 Tri2.
Import ListNotations.
Local Open Scope nat_scope.
#[local] Ltac Zify.zify_post_hook ::= Z.to_euclidean_division_equations.

Definition below (x k : nat) : bool := Nat.ltb k x.
Definition above (x k : nat) : bool := Nat.ltb x k.

Lemma tri_cut_ok : forall mb, 512 < mb -> tri_cut mb mod 64 = 0 /\ 256 <= tri_cut mb /\ tri_cut mb + 128 <= mb /\ tri_cut mb < 32 * (mb - tri_cut mb) + 32.
Proof. intros mb H. unfold tri_cut. split; [apply Nat.mod_mul; lia|]. lia. Qed.

Lemma depth_lt : forall A m, mnrows A = m -> m < 2 ^ depth A.
Proof. intros A m E. unfold depth. rewrite E. destruct m; [cbn; lia|]. apply Nat.log2_spec. lia. Qed.

(** The two halves of the columns *)
Lemma halves : forall a b g, xsum (a + b) g = xorb (xsum a g) (xsum b (fun k => g (a + k))).
Proof. intros. apply xsum_add. Qed.

Section Rec.
Variables (kcache : nat) (junk : nat -> list N) (cutoff : nat).
Hypothesis Hj : junk_ok junk.
Hypothesis Hc : (N.of_nat cutoff < 2 ^ 29)%N.

Lemma lower_halves : forall R C r1 T B B0' B1' T00 T11 X0 X1 P, okm R C B -> r1 <= R -> 
  inv r1 C T00 (bitat B0') below X0 -> inv (R - r1) C T11 (bitat B1') below X1 ->
  (forall i j, i < r1 -> j < r1 -> bitat T00 i j = bitat T i j) ->
  (forall i j, i < R - r1 -> j < R - r1 -> bitat T11 i j = bitat T (r1 + i) (r1 + j)) ->
  (forall i j, i < r1 -> j < C -> bitat B0' i j = bitat B i j) ->
  (forall i j, i < R - r1 -> j < C -> bitat B1' i j = xorb (bitat B (r1 + i) j) (xsum r1 (fun k => bitat T (r1 + i) k && bitat X0 k j))) ->
  okm R C P -> (forall i j, i < R -> j < C -> bitat P i j = if Nat.ltb i r1 then bitat X0 i j else bitat X1 (i - r1) j) ->
  inv R C T (bitat B) below P.
Proof.
  intros R C r1 T B B0' B1' T00 T11 X0 X1 P HB Hr [HX0 E0] [HX1 E1] T0 T1 EB0 EB1 HP EP. split; [exact HP|]. intros x t Hx Ht.
  replace R with (r1 + (R - r1)) by lia. rewrite halves, EP by assumption.
  destruct (Nat.ltb_spec x r1) as [H|H].
  - rewrite <- (EB0 x t H Ht), <- (E0 x t H Ht). rewrite (xsum_false (R - r1)).
    + rewrite xorb_false_r. f_equal. apply xsum_ext. intros k Hk. rewrite EP, T0 by (lia || assumption).
      destruct (Nat.ltb_spec k r1); [reflexivity|lia].
    + intros k Hk. unfold below. destruct (Nat.ltb_spec (r1 + k) x); [lia|reflexivity].
  - assert (Hx' : x - r1 < R - r1) by lia. specialize (E1 _ t Hx' Ht). rewrite (EB1 _ t Hx' Ht) in E1.
    replace (r1 + (x - r1)) with x in E1 by lia.
    rewrite (xsum_ext r1 (fun k => below x k && (bitat T x k && bitat P k t)) (fun k => bitat T x k && bitat X0 k t)).
    + rewrite (xsum_ext (R - r1) (fun k => below x (r1 + k) && (bitat T x (r1 + k) && bitat P (r1 + k) t))
                 (fun k => below (x - r1) k && (bitat T11 (x - r1) k && bitat X1 k t))).
      * destruct (bitat X1 (x - r1) t), (xsum r1 _), (xsum (R - r1) _), (bitat B x t); cbn [xorb] in *; congruence.
      * intros k Hk. rewrite T1 by lia. replace (r1 + (x - r1)) with x by lia. rewrite EP by (lia || assumption).
        destruct (Nat.ltb_spec (r1 + k) r1); [lia|]. replace (r1 + k - r1) with k by lia. f_equal. unfold below.
        destruct (Nat.ltb_spec (r1 + k) x), (Nat.ltb_spec k (x - r1)); lia || reflexivity.
    + intros k Hk. rewrite EP by (lia || assumption). destruct (Nat.ltb_spec k r1); [|lia]. unfold below. destruct (Nat.ltb_spec k x); [reflexivity|lia].
Qed.

Lemma upper_halves : forall R C r1 T B B0' B1' T00 T11 X0 X1 P, okm R C B -> r1 <= R -> 
  inv r1 C T00 (bitat B0') above X0 -> inv (R - r1) C T11 (bitat B1') above X1 ->
  (forall i j, i < r1 -> j < r1 -> bitat T00 i j = bitat T i j) ->
  (forall i j, i < R - r1 -> j < R - r1 -> bitat T11 i j = bitat T (r1 + i) (r1 + j)) ->
  (forall i j, i < R - r1 -> j < C -> bitat B1' i j = bitat B (r1 + i) j) ->
  (forall i j, i < r1 -> j < C -> bitat B0' i j = xorb (bitat B i j) (xsum (R - r1) (fun k => bitat T i (r1 + k) && bitat X1 k j))) ->
  okm R C P -> (forall i j, i < R -> j < C -> bitat P i j = if Nat.ltb i r1 then bitat X0 i j else bitat X1 (i - r1) j) ->
  inv R C T (bitat B) above P.
Proof.
  intros R C r1 T B B0' B1' T00 T11 X0 X1 P HB Hr [HX0 E0] [HX1 E1] T0 T1 EB1 EB0 HP EP. split; [exact HP|]. intros x t Hx Ht.
  replace R with (r1 + (R - r1)) by lia. rewrite halves, EP by assumption.
  destruct (Nat.ltb_spec x r1) as [H|H].
  - specialize (E0 x t H Ht). rewrite (EB0 x t H Ht) in E0.
    rewrite (xsum_ext r1 (fun k => above x k && (bitat T x k && bitat P k t)) (fun k => above x k && (bitat T00 x k && bitat X0 k t))).
    + rewrite (xsum_ext (R - r1) (fun k => above x (r1 + k) && (bitat T x (r1 + k) && bitat P (r1 + k) t))
                 (fun k => bitat T x (r1 + k) && bitat X1 k t)).
      * destruct (bitat X0 x t), (xsum r1 _), (xsum (R - r1) _), (bitat B x t); cbn [xorb] in *; congruence.
      * intros k Hk. rewrite EP by (lia || assumption). destruct (Nat.ltb_spec (r1 + k) r1); [lia|]. replace (r1 + k - r1) with k by lia.
        unfold above. destruct (Nat.ltb_spec x (r1 + k)); [reflexivity|lia].
    + intros k Hk. rewrite EP, T0 by (lia || assumption). destruct (Nat.ltb_spec k r1); [reflexivity|lia].
  - assert (Hx' : x - r1 < R - r1) by lia. specialize (E1 _ t Hx' Ht). rewrite (EB1 _ t Hx' Ht) in E1.
    replace (r1 + (x - r1)) with x in E1 by lia. rewrite <- E1. rewrite (xsum_false r1).
    + rewrite xorb_false_l. f_equal. apply xsum_ext. intros k Hk. rewrite T1 by lia. replace (r1 + (x - r1)) with x by lia.
      rewrite EP by (lia || assumption). destruct (Nat.ltb_spec (r1 + k) r1); [lia|]. replace (r1 + k - r1) with k by lia. f_equal. unfold above.
      destruct (Nat.ltb_spec x (r1 + k)), (Nat.ltb_spec (x - r1) k); lia || reflexivity.
    + intros k Hk. unfold above. destruct (Nat.ltb_spec x k); [lia|reflexivity].
Qed.

Lemma two_halves : forall R C r1 B X0 X1, okm R C B -> okm r1 C X0 -> okm (R - r1) C X1 -> r1 <= R ->
  okm R C (put (put B X0 0 0) X1 r1 0) /\
  forall i j, i < R -> j < C -> bitat (put (put B X0 0 0) X1 r1 0) i j = if Nat.ltb i r1 then bitat X0 i j else bitat X1 (i - r1) j.
Proof.
  intros R C r1 B X0 X1 HB H0 H1 Hr.
  destruct (put_ok R C B X0 0 0 r1 C HB H0 ltac:(split; lia) ltac:(lia)) as [P1 E1].
  destruct (put_ok R C _ X1 r1 0 (R - r1) C P1 H1 ltac:(split; lia) ltac:(lia)) as [P2 E2].
  split; [exact P2|]. intros i j Hi Hjj. rewrite E2, E1 by assumption. rewrite !Nat.sub_0_r, !Nat.add_0_l.
  repeat match goal with |- context [Nat.ltb ?a ?b] => destruct (Nat.ltb_spec a b) | |- context [Nat.leb ?a ?b] => destruct (Nat.leb_spec a b) end;
  cbn [andb]; lia || reflexivity.
Qed.

Lemma trsm_lower_ok : forall fuel R C T B (Q : mzd -> Prop), R < fuel -> 1 <= C -> okd R R T -> okm R C B ->
  fits R R -> fits R C -> fits C R -> (forall M, inv R C T (bitat B) below M -> Q M) -> wp (trsm_lower kcache junk fuel cutoff T B) Q.
Proof.
  induction fuel as [|fuel IH]; intros R C T B Q Hf HC HT HB F0 F1 F2 HQ; [lia|]. cbn [trsm_lower].
  pose proof HB as (B1 & B2 & _). rewrite B1, B2. cbv zeta.
  assert (HI : inv R C T (bitat B) (apl 0 0) B) by (apply inv_start; auto).
  destruct (Nat.leb_spec R 64) as [H64|H64]; [|destruct (Nat.leb_spec R 512) as [H512|H512]].
  - apply (lower_rows_ok R C T (bitat B)); [exact HC|lia|eapply reads_bit0; [exact HT|exact H64]|exact HI|]. intros M HM. apply HQ.
    eapply inv_ext; [|exact HM]. intros x k Hx Hk. unfold apl, below. rewrite Nat.add_0_l. destruct (Nat.ltb_spec x R); [reflexivity|lia].
  - apply (lower_russian_ok R C T (bitat B) HT HC); [lia|exact HI|]. intros M HM. apply HQ.
    eapply inv_ext; [|exact HM]. intros x k Hx Hk. unfold apl, below. destruct (Nat.ltb_spec x R); [reflexivity|lia].
  - destruct (tri_cut_ok R H512) as (C1 & C2 & C3 & C4). set (r1 := tri_cut R) in *. clearbody r1.
    apply wp_bind, (wp_win R C B 0 0 r1 C r1 C); [exact HB|split; lia|lia|lia|lia|]. intros B0 HB0 EB0.
    apply wp_bind, (wp_win R C B r1 0 R C (R - r1) C); [exact HB|split; lia|lia|lia|lia|]. intros B1' HB1 EB1.
    apply wp_bind, (wp_wind R R T 0 0 r1 r1 r1 r1); [exact HT|lia|lia|lia|lia|lia|]. intros L00 H00 _ E00.
    apply wp_bind, (wp_wind R R T r1 0 R r1 (R - r1) r1); [exact HT|lia|lia|lia|lia|lia|]. intros L10 H10 _ E10.
    apply wp_bind, (wp_wind R R T r1 r1 R R (R - r1) (R - r1)); [exact HT|lia|lia|lia|lia|lia|]. intros L11 H11 _ E11.
    apply wp_bind, (IH r1 C); [lia|exact HC|exact H00|exact HB0|eapply fits_le; [exact F0| |]; lia|eapply fits_le; [exact F1| |]; lia|eapply fits_le; [exact F2| |]; lia|].
    intros X0 HX0. pose proof HX0 as [OX0 _].
    destruct (addmul_top kcache junk Hj true (R - r1) r1 C (Some B1') L10 X0 cutoff H10 OX0) as (P1 & EP1 & HP1 & QP1).
    { intros M [= <-]. exact HB1. }
    { eapply fits_le; [exact F0| |]; lia. }
    { eapply fits_le; [exact F1| |]; lia. }
    { eapply fits_le; [exact F2| |]; lia. }
    { exact Hc. }
    { left. unfold cuts. lia. }
    rewrite EP1. cbn [bind].
    apply wp_bind, (IH (R - r1) C); [lia|exact HC|exact H11|exact HP1|eapply fits_le; [exact F0| |]; lia|eapply fits_le; [exact F1| |]; lia|eapply fits_le; [exact F2| |]; lia|].
    intros X1 HX1. pose proof HX1 as [OX1 _]. apply wp_ok, HQ.
    destruct (two_halves R C r1 B X0 X1 HB OX0 OX1 ltac:(lia)) as [HP EP].
    apply (lower_halves R C r1 T B B0 P1 L00 L11 X0 X1 _ HB ltac:(lia) HX0 HX1); [exact E00|exact E11|exact EB0| |exact HP|exact EP].
    intros i j Hi Hjj. rewrite QP1 by assumption. cbn [before]. rewrite EB1 by assumption. cbn [Nat.add]. f_equal. unfold fmul.
    apply xsum_ext. intros k Hk. rewrite E10 by assumption. reflexivity.
Qed.

(** The cutoff is passed on as it is *)
Hypothesis Hraw : cutoff = 0 \/ 64 <= cutoff.

Lemma trsm_upper_ok : forall fuel R C T B (Q : mzd -> Prop), R < fuel -> 1 <= C -> okd R R T -> okm R C B ->
  fits R R -> fits R C -> fits C R -> (forall M, inv R C T (bitat B) above M -> Q M) -> wp (trsm_upper kcache junk fuel cutoff T B) Q.
Proof.
  induction fuel as [|fuel IH]; intros R C T B Q Hf HC HT HB F0 F1 F2 HQ; [lia|]. cbn [trsm_upper].
  pose proof HB as (B1 & B2 & _). rewrite B1, B2. cbv zeta.
  assert (HI : inv R C T (bitat B) (apu R R) B).
  { eapply inv_ext; [|apply inv_start; auto; exact HB]. intros x k Hx Hk. unfold apl, apu.
    destruct (Nat.ltb_spec x 0), (Nat.leb_spec R x), (Nat.ltb_spec k 0), (Nat.leb_spec R k); lia || reflexivity. }
  assert (FIN : forall M, inv R C T (bitat B) (apu 0 0) M -> Q M).
  { intros M HM. apply HQ. eapply inv_ext; [|exact HM]. intros x k _ _. reflexivity. }
  destruct (Nat.leb_spec R 64) as [H64|H64]; [|destruct (Nat.leb_spec R 512) as [H512|H512]].
  - apply (upper_rows_ok R C T (bitat B)); [exact HC|lia|eapply reads_bit0; [exact HT|exact H64]|exact HI|]. intros M HM. apply FIN.
    eapply inv_ext; [|exact HM]. intros x k Hx Hk. unfold apu. reflexivity.
  - apply (upper_russian_ok R C T (bitat B) HT HC); [lia|exact HI|exact FIN].
  - destruct (tri_cut_ok R H512) as (C1 & C2 & C3 & C4). set (r1 := tri_cut R) in *. clearbody r1.
    apply wp_bind, (wp_win R C B 0 0 r1 C r1 C); [exact HB|split; lia|lia|lia|lia|]. intros B0 HB0 EB0.
    apply wp_bind, (wp_win R C B r1 0 R C (R - r1) C); [exact HB|split; lia|lia|lia|lia|]. intros B1' HB1 EB1.
    apply wp_bind, (wp_wind R R T 0 0 r1 r1 r1 r1); [exact HT|lia|lia|lia|lia|lia|]. intros U00 H00 _ E00.
    apply wp_bind, (wp_wind R R T 0 r1 r1 R r1 (R - r1)); [exact HT|lia|lia|lia|lia|lia|]. intros U01 H01 _ E01.
    apply wp_bind, (wp_wind R R T r1 r1 R R (R - r1) (R - r1)); [exact HT|lia|lia|lia|lia|lia|]. intros U11 H11 _ E11.
    apply wp_bind, (IH (R - r1) C); [lia|exact HC|exact H11|exact HB1|eapply fits_le; [exact F0| |]; lia|eapply fits_le; [exact F1| |]; lia|eapply fits_le; [exact F2| |]; lia|].
    intros X1 HX1. pose proof HX1 as [OX1 _].
    assert (G1 : fits (R - r1) C) by (eapply fits_le; [exact F1| |]; lia).
    assert (G2 : fits C (R - r1)) by (eapply fits_le; [exact F2| |]; lia).
    assert (G3 : fits r1 r1) by (eapply fits_le; [exact F0| |]; lia).
    assert (W : wp (addmul_even kcache junk (depth U01) true cutoff B0 U01 X1) (fun M => mspec false r1 (R - r1) C B0 U01 X1 M)).
    { pose proof H01 as (U1 & _). destruct (fits_lim _ _ G1) as [Lk Ln]. destruct (fits_lim _ _ G3) as [Lm _].
      destruct Hraw as [E|Hge].
      - rewrite E. unfold depth. rewrite U1. assert (0 < Nat.log2 r1) by (apply Nat.log2_pos; lia).
        apply (addmul_even_zero kcache junk (Nat.log2 r1) true r1 (R - r1) C); auto; lia.
      - apply (addmul_even_ok kcache junk Hj cutoff Hge) with (m := r1) (k := R - r1) (n := C); auto; try lia.
        + unfold limc. lia.
        + unfold depth. lia.
        + apply depth_lt. exact U1.
        + destruct (Nat.lt_ge_cases C 128); [right; right; assumption|]. left. unfold ready. right. lia. }
    apply wp_bind. eapply wp_mono; [exact W|]. intros P0 [HP0 QP0].
    apply wp_bind, (IH r1 C); [lia|exact HC|exact H00|exact HP0|exact G3|eapply fits_le; [exact F1| |]; lia|eapply fits_le; [exact F2| |]; lia|].
    intros X0 HX0. pose proof HX0 as [OX0 _]. apply wp_ok, HQ.
    destruct (two_halves R C r1 B X0 X1 HB OX0 OX1 ltac:(lia)) as [HP EP].
    apply (upper_halves R C r1 T B P0 B1' U00 U11 X0 X1 _ HB ltac:(lia) HX0 HX1); [exact E00|exact E11|exact EB1| |exact HP|exact EP].
    intros i j Hi Hjj. rewrite QP0 by assumption. unfold kept. cbn [negb andb]. rewrite EB0 by assumption. cbn [Nat.add]. f_equal. unfold fmul.
    apply xsum_ext. intros k Hk. rewrite E01 by assumption. reflexivity.
Qed.
End Rec.

(** ** The specification *)
Lemma okd_readable : forall R C M, okd R C M <-> readable R C M.
Proof.
  intros R C M. unfold okd, readable, wfd. split; intros (H1 & H2 & H3 & H4); refine (conj H1 (conj H2 (conj H3 _))).
  - intros row Hin. apply (In_nth _ _ []) in Hin. destruct Hin as (i & Hi & <-). destruct (H4 i ltac:(lia)) as [L Hw]. split; [exact L|].
    intros w Hw'. apply (In_nth _ _ 0%N) in Hw'. destruct Hw' as (k & Hk & <-). apply (tb_lt _ 64). intros b Hb.
    destruct (tb (nth k (nth i (mrows M) []) 0%N) b) eqn:E; [|reflexivity]. apply Hw in E. lia.
  - intros i Hi. destruct (H4 (nth i (mrows M) []) ltac:(apply nth_In; lia)) as [L Hw]. split; [exact L|]. intros k b Hb.
    destruct (Nat.lt_ge_cases b 64); [assumption|]. exfalso. unfold rw in Hb.
    destruct (Nat.lt_ge_cases k (length (nth i (mrows M) []))) as [Hk|Hk].
    + specialize (Hw _ (nth_In _ 0%N Hk)). change (2 ^ 64)%N with (2 ^ N.of_nat 64)%N in Hw. rewrite (proj1 (tb_lt _ 64) Hw b) in Hb by lia. discriminate.
    + rewrite nth_overflow in Hb by exact Hk. rewrite tb_0 in Hb. discriminate.
Qed.

Lemma unit_lower_sum : forall R T X x t, x < R -> fmul R (unit_lower T) X x t = xorb (X x t) (xsum R (fun k => below x k && (T x k && X k t))).
Proof.
  intros R T X x t Hx. unfold fmul. rewrite <- (xsum_fid_l R x (fun k => X k t) Hx), <- xsum_xorb. apply xsum_ext. intros k Hk.
  unfold unit_lower, fid, below. destruct (Nat.ltb_spec k x), (Nat.eqb_spec x k); try lia; destruct (X k t), (T x k); reflexivity.
Qed.
Lemma unit_upper_sum : forall R T X x t, x < R -> fmul R (unit_upper T) X x t = xorb (X x t) (xsum R (fun k => above x k && (T x k && X k t))).
Proof.
  intros R T X x t Hx. unfold fmul. rewrite <- (xsum_fid_l R x (fun k => X k t) Hx), <- xsum_xorb. apply xsum_ext. intros k Hk.
  unfold unit_upper, fid, above. destruct (Nat.ltb_spec x k), (Nat.eqb_spec x k); try lia; destruct (X k t), (T x k); reflexivity.
Qed.
