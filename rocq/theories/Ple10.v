(** From PLE to PLUQ; systems and kernels with the factorisation *)
From Coq Require Import Arith NArith List Bool Lia.
From Verif Require Import Base Spec LinAlg ModelM4ri SpecM4ri M4ri1 M4riD M4ri14 ModelM4ri2 SpecM4ri2 ModelStrassen Strassen1 Strassen4 ModelTri Tri1 Tri3 ModelPle ModelPle2 SpecTri SpecRank SpecPle SpecPle2 Ple1 Ple2 Ple3 Ple4 Ple5 Ple6 Ple7 Ple8 Ple9.
Import ListNotations.

Lemma perm_above_split : forall k Q n y, k < n -> perm Q n y = perm Q (S k) (perm_above k Q n y).
Proof.
  intros k Q n. induction n as [|n IH]; intros y Hk; [lia|]. cbn [perm_above]. change (perm Q (S n) y) with (perm Q n (tr n (Q n) y)).
  destruct (Nat.ltb_spec k n) as [G|G]; [apply IH; exact G|]. assert (n = k) by lia. subst n.
  assert (L : forall t z, t <= k -> perm_above k Q t z = z).
  { induction t as [|t IHt]; intros z Ht; [reflexivity|]. cbn [perm_above]. destruct (Nat.ltb_spec k t); [lia|]. apply IHt. lia. }
  rewrite L by lia. reflexivity.
Qed.
Lemma perm_above_low : forall k Q n y, (forall i, i < n -> i <= Q i) -> y <= k -> perm_above k Q n y = y.
Proof.
  intros k Q n. induction n as [|n IH]; intros y H Hy; [reflexivity|]. cbn [perm_above]. destruct (Nat.ltb_spec k n); [|apply IH; auto].
  replace (tr n (Q n) y) with y; [apply IH; auto|]. pose proof (H n ltac:(lia)). unfold tr. destruct (Nat.eqb_spec y n); [lia|]. destruct (Nat.eqb_spec y (Q n)); [lia|reflexivity].
Qed.
Lemma perm_above_high : forall k Q n y, (forall i, i < n -> i <= Q i) -> k < y -> k < perm_above k Q n y.
Proof.
  intros k Q n. induction n as [|n IH]; intros y H Hy; [exact Hy|]. cbn [perm_above]. destruct (Nat.ltb_spec k n); [|apply IH; auto].
  apply IH; auto. pose proof (H n ltac:(lia)). unfold tr. destruct (Nat.eqb_spec y n); [lia|]. destruct (Nat.eqb_spec y (Q n)); lia.
Qed.
Lemma perm_above_lt : forall k Q N n y, n <= N -> (forall i, i < n -> Q i < N) -> y < N -> perm_above k Q n y < N.
Proof.
  intros k Q N n. induction n as [|n IH]; intros y Hn H Hy; [exact Hy|]. cbn [perm_above]. destruct (Nat.ltb k n); apply IH; auto; try lia.
  apply tr_lt; auto.
Qed.

Lemma ple_pluq : forall m n r A0 D D' P Q, ple_of m n r A0 D P Q ->
  (forall x y, x < r -> y < n -> D' x y = D x (perm_above x (at_ Q) n y)) -> (forall x y, r <= x -> x < m -> y < r -> D' x y = D x y) ->
  pluq_of m n r A0 D' P Q.
Proof.
  intros m n r A0 D D' P Q (SP & SQ & Rm & Rn & I1 & Qi & E & Za & Zb) EU EL. refine (conj SP (conj SQ (conj Rm (conj Rn _)))).
  pose proof SQ as [LQ HQ]. assert (HQ1 : forall i, i < n -> i <= at_ Q i) by (intros i Hi; apply HQ, Hi).
  assert (HQ2 : forall i, i < n -> at_ Q i < n) by (intros i Hi; apply HQ, Hi).
  intros x y Hx Hy. assert (Hp : perm (at_ Q) n y < n) by (apply perm_lt; [apply swaps_lt; exact SQ|exact Hy]).
  rewrite (E x _ Hx Hp). unfold fmul. apply xsum_ext. intros k Hk. f_equal.
  - unfold unit_lower. destruct (Nat.ltb_spec k x) as [G|G]; [|reflexivity]. destruct (Nat.lt_ge_cases x r) as [K|K].
    + rewrite EU by lia. rewrite perm_above_low by (auto; lia). reflexivity.
    + symmetry. apply EL; assumption.
  - assert (HI : incr (at_ Q) (S k)). { split; [intros i Hi; apply HQ1; lia|]. intros a b Hab Hb. apply Qi; lia. }
    assert (B1 : forall t, t < S k -> at_ Q t <= at_ Q k). { intros t Ht. destruct (Nat.eq_dec t k) as [->|]; [lia|]. pose proof (Qi t k ltac:(lia) Hk). lia. }
    rewrite (perm_above_split k (at_ Q) n y) by lia. rewrite <- (Nat.add_1_r k) in *. unfold unit_upper. rewrite EU by assumption.
    destruct (Nat.lt_trichotomy y k) as [G|[->|G]].
    + rewrite perm_above_low by (auto; lia). rewrite perm_incr by (auto; lia). pose proof (Qi y k G Hk). unfold ple_e.
      destruct (Nat.ltb_spec (at_ Q y) (at_ Q k)); [|lia]. destruct (Nat.ltb_spec k y); [lia|]. destruct (Nat.eqb_spec k y); [lia|reflexivity].
    + rewrite perm_above_low by (auto; lia). rewrite perm_incr by (auto; lia). unfold ple_e. rewrite Nat.ltb_irrefl, !Nat.eqb_refl, Nat.ltb_irrefl. reflexivity.
    + pose proof (perm_above_high k (at_ Q) n y HQ1 G) as Hz. pose proof (perm_above_lt k (at_ Q) n n y ltac:(lia) HQ2 Hy) as Hz2.
      set (z := perm_above k (at_ Q) n y) in *. clearbody z. destruct (Nat.ltb_spec k y); [|lia].
      destruct (Nat.le_gt_cases z (at_ Q k)) as [K|K].
      * rewrite (Za k z) by assumption. pose proof (perm_stays (at_ Q) (k + 1) z (at_ Q k) HI B1 K). pose proof (perm_avoids (at_ Q) (k + 1) z HI ltac:(lia) k ltac:(lia)).
        unfold ple_e. destruct (Nat.ltb_spec (perm (at_ Q) (k + 1) z) (at_ Q k)); [reflexivity|lia].
      * rewrite perm_beyond. 2: { intros t Ht. split; [apply HQ1; lia|]. specialize (B1 t Ht). lia. }
        unfold ple_e. destruct (Nat.ltb_spec z (at_ Q k)); [lia|]. destruct (Nat.eqb_spec z (at_ Q k)); [lia|reflexivity].
Qed.

Lemma ple_rank : forall m n r A0 D P Q, ple_of m n r A0 D P Q -> rank_is m n A0 r.
Proof.
  intros m n r A0 D P Q H.
  apply (pluq_rank m n r A0 (fun x y => if Nat.ltb x r then D x (perm_above x (at_ Q) n y) else D x y) P Q).
  apply (ple_pluq m n r A0 D); [exact H| |].
  - intros x y Hx _. destruct (Nat.ltb_spec x r); [reflexivity|lia].
  - intros x y Hx _ _. destruct (Nat.ltb_spec x r); [lia|reflexivity].
Qed.

Section Pluq.
Variables (kcache : nat) (junk : nat -> list N) (ple_cutoff cutoff : nat).
Variable russian : mzd -> list nat -> list nat -> res (mzd * list nat * list nat * nat).
Hypothesis Hj : junk_ok junk.
Hypothesis Hc : (N.of_nat cutoff < 2 ^ 29)%N.
Hypothesis Hraw : cutoff = 0 \/ 128 <= cutoff.
Hypothesis Hbase : is_ple russian.

Lemma pluq_ok : forall step m n A P Q (Post : mzd * list nat * list nat * nat -> Prop), 0 < step -> okm m n A -> 0 < n -> length P = m -> length Q = n ->
  fits m n -> fits n m ->
  (forall A' P' Q' r, okm m n A' -> pluq_of m n r (bitat A) (bitat A') P' Q' -> Post (A', P', Q', r)) ->
  wp (mzd_pluq_ kcache junk ple_cutoff russian step A P Q cutoff) Post.
Proof.
  intros step m n A P Q Post Hs HA Hn LP LQ F0 F1 HPost. unfold mzd_pluq_. pose proof HA as (A1 & A2 & _). rewrite A2.
  apply wp_bind, (ple_rec_ok kcache junk ple_cutoff cutoff russian Hj Hc Hraw Hbase (S n) m n A); auto. intros D P' Q' r HD H.
  pose proof H as (SP & SQ & Rm & Rn & _ & _ & _ & _ & Zb). pose proof HD as (D1 & D2 & _). rewrite D1, D2. apply wp_bind.
  assert (HQlt : forall x y, y < n -> perm_above x (at_ Q') n y < n). { intros x y Hy. apply perm_above_lt; [lia| |exact Hy]. intros i Hi. apply SQ, Hi. }
  destruct (Nat.eqb_spec r 0) as [Hr|Hr]; [|destruct (Nat.ltb_spec r m) as [Hrm|Hrm]]; cbn [negb andb].
  - apply (trans_tri_ok m n); auto. intros M HM EM. apply wp_ok, HPost; [exact HM|]. apply (ple_pluq m n r (bitat A) (bitat D)); [exact H| |]; intros; lia.
  - apply wp_bind, (wp_win m n D 0 0 r n r n); [exact HD|split; lia|lia|lia|lia|]. intros W HW EW.
    apply wp_bind, (trans_tri_ok r n); auto. intros M HM EM. apply wp_ok.
    destruct (put_ok m n D M 0 0 r n HD HM ltac:(split; lia) ltac:(lia)) as [HB EB].
    apply wp_ok, HPost; [exact HB|]. apply (ple_pluq m n r (bitat A) (bitat D)); [exact H| |].
    + intros x y Hx Hy. rewrite EB by lia. destruct (Nat.leb_spec 0 x), (Nat.ltb_spec x (0 + r)), (Nat.leb_spec 0 y), (Nat.ltb_spec y (0 + n)); try lia. cbn [andb].
      rewrite !Nat.sub_0_r, EM, EW by auto. reflexivity.
    + intros x y Hx1 Hx2 Hy. rewrite EB by lia. destruct (Nat.ltb_spec x (0 + r)); [lia|]. rewrite andb_false_r. reflexivity.
  - apply (trans_tri_ok m n); auto. intros M HM EM. apply wp_ok, HPost; [exact HM|]. apply (ple_pluq m n r (bitat A) (bitat D)); [exact H| |].
    + intros x y Hx Hy. apply EM; lia.
    + intros; lia.
Qed.
End Pluq.
