(** The cubic PLE factorisation *)
From Coq Require Import Arith NArith List Bool Lia.
From Verif Require Import Base Spec LinAlg ModelM4ri SpecM4ri M4ri1 M4riD ModelM4ri2 SpecM4ri2 ModelStrassen ModelTri ModelPle ModelPle2 SpecTri SpecPle SpecPle2 Ple1 Ple2 Ple3.
Import ListNotations.

Definition incr (Q : nat -> nat) (r : nat) : Prop := (forall k, k < r -> k <= Q k) /\ forall i k, i < k -> k < r -> Q i < Q k.
Lemma incr_le : forall Q r r', incr Q r -> r' <= r -> incr Q r'.
Proof. intros Q r r' [H1 H2] H. split; intros; [apply H1|apply H2]; lia. Qed.

Lemma perm_beyond : forall Q T y, (forall t, t < T -> t <= Q t /\ Q t < y) -> perm Q T y = y.
Proof.
  intros Q T. induction T as [|T IH]; intros y H; cbn [perm]; [reflexivity|]. pose proof (H T ltac:(lia)).
  replace (tr T (Q T) y) with y; [apply IH; intros; apply H; lia|]. unfold tr. destruct (Nat.eqb_spec y T); [lia|]. destruct (Nat.eqb_spec y (Q T)); [lia|reflexivity].
Qed.
Lemma perm_incr : forall Q T k, incr Q T -> k < T -> perm Q T k = Q k.
Proof.
  intros Q T. induction T as [|T IH]; intros k [H1 H2] Hk; [lia|]. cbn [perm]. unfold tr. destruct (Nat.eqb_spec k T) as [->|].
  - apply perm_beyond. intros t Ht. split; [apply H1; lia|apply H2; lia].
  - pose proof (H1 T ltac:(lia)). destruct (Nat.eqb_spec k (Q T)); [lia|]. apply IH; [apply (incr_le Q (S T)); [split; assumption|lia]|lia].
Qed.
Lemma perm_avoids : forall Q T y, incr Q T -> T <= y -> forall k, k < T -> perm Q T y <> Q k.
Proof.
  intros Q T y H Hy k Hk E. rewrite <- (perm_incr Q T k H Hk) in E. apply (f_equal (iperm Q T)) in E. rewrite !iperm_perm in E. lia.
Qed.
Lemma perm_stays : forall Q T y B, incr Q T -> (forall t, t < T -> Q t <= B) -> y <= B -> perm Q T y <= B.
Proof.
  intros Q T y B [H1 H2] HB Hy. assert (perm Q T y < S B); [|lia]. apply perm_lt; [|lia]. intros i Hi. specialize (H1 i Hi). specialize (HB i Hi). lia.
Qed.

(** L, before its columns have been moved *)
Definition raw_l (D : fmat) (Q : nat -> nat) : fmat := fun x k => if Nat.ltb k x then D x (Q k) else Nat.eqb x k.

Definition part_ple (m n c j : nat) (A0 : fmat) (A : mzd) (P Q : list nat) : Prop :=
  okm m n A /\ length P = m /\ length Q = n /\ c <= m /\ c <= j /\ j <= n /\
  (forall k, k < c -> k <= at_ P k /\ at_ P k < m) /\ (forall k, k < c -> at_ Q k < j) /\ incr (at_ Q) c /\
  (forall x y, x < m -> y < n -> A0 (perm (at_ P) c x) y =
    xorb (xsum c (fun k => raw_l (bitat A) (at_ Q) x k && ple_e (bitat A) (at_ Q) k y)) (Nat.leb c x && Nat.leb j y && bitat A x y)) /\
  (forall x y, x < c -> y < at_ Q x -> (forall t, t < x -> y <> at_ Q t) -> bitat A x y = false) /\
  (forall x y, c <= x -> x < m -> y < j -> (forall t, t < c -> y <> at_ Q t) -> bitat A x y = false).

Lemma part_ple_step : forall m n c j A0 A P Q i q A', part_ple m n c j A0 A P Q -> c <= i -> i < m -> j <= q -> q < n -> bitat A i q = true ->
  (forall x y, c <= x -> x < m -> j <= y -> y < q -> bitat A x y = false) -> okm m n A' ->
  (forall x y, x < m -> y < n -> bitat A' x y =
     if Nat.ltb c x && Nat.ltb q y && bitat A (tr c i x) q then xorb (bitat A (tr c i x) y) (bitat A i y) else bitat A (tr c i x) y) ->
  part_ple m n (S c) (S q) A0 A' (upd P c i) (upd Q c q).
Proof.
  intros m n c j A0 A P Q i q A' (HA & LP & LQ & Cm & Cj & Jn & HP & HQ & HI & HE & Z1 & Z2) Hi1 Hi2 Hq1 Hq2 Hb Hmin HA' E.
  assert (EP : forall k, k < c -> at_ (upd P c i) k = at_ P k). { intros k Hk. rewrite at_upd by lia. destruct (Nat.eqb_spec k c); [lia|reflexivity]. }
  assert (EPc : at_ (upd P c i) c = i). { rewrite at_upd by lia. rewrite Nat.eqb_refl. reflexivity. }
  assert (EQ : forall k, k < c -> at_ (upd Q c q) k = at_ Q k). { intros k Hk. rewrite at_upd by lia. destruct (Nat.eqb_spec k c); [lia|reflexivity]. }
  assert (EQc : at_ (upd Q c q) c = q). { rewrite at_upd by lia. rewrite Nat.eqb_refl. reflexivity. }
  assert (Tm : forall x, x < m -> tr c i x < m) by (intros; apply tr_lt; lia).
  assert (Tlow : forall x, x < c -> tr c i x = x) by (intros; apply tr_low; assumption).
  assert (Elow : forall x y, x < c -> y < n -> bitat A' x y = bitat A x y).
  { intros x y Hx Hy. rewrite E by lia. destruct (Nat.ltb_spec c x); [lia|]. cbn [andb]. rewrite Tlow by exact Hx. reflexivity. }
  assert (Eleft : forall x y, x < m -> y <= q -> bitat A' x y = bitat A (tr c i x) y).
  { intros x y Hx Hy. rewrite E by lia. destruct (Nat.ltb_spec q y); [lia|]. rewrite andb_false_r. reflexivity. }
  refine (conj HA' (conj _ (conj _ (conj _ (conj _ (conj _ (conj _ (conj _ (conj _ (conj _ (conj _ _)))))))))));
    [rewrite length_upd; exact LP|rewrite length_upd; exact LQ|lia|lia|lia| | | | | |].
  - intros k Hk. destruct (Nat.eq_dec k c) as [->|]; [rewrite EPc; lia|rewrite EP by lia; apply HP; lia].
  - intros k Hk. destruct (Nat.eq_dec k c) as [->|]; [rewrite EQc; lia|rewrite EQ by lia; specialize (HQ k ltac:(lia)); lia].
  - destruct HI as [I1 I2]. split.
    + intros k Hk. destruct (Nat.eq_dec k c) as [->|]; [rewrite EQc; lia|rewrite EQ by lia; apply I1; lia].
    + intros a k Ha Hk. rewrite (EQ a) by lia. destruct (Nat.eq_dec k c) as [->|]; [rewrite EQc; specialize (HQ a ltac:(lia)); lia|rewrite EQ by lia; apply I2; lia].
  - intros x y Hx Hy. cbn [perm]. rewrite EPc. rewrite (perm_ext (at_ (upd P c i)) (at_ P)) by (intros; apply EP; assumption).
    rewrite HE by auto. cbn [xsum].
    rewrite (xsum_ext c (fun k => raw_l (bitat A') (at_ (upd Q c q)) x k && ple_e (bitat A') (at_ (upd Q c q)) k y)
              (fun k => raw_l (bitat A) (at_ Q) (tr c i x) k && ple_e (bitat A) (at_ Q) k y)).
    2: { intros k Hk. f_equal.
         - unfold raw_l. rewrite EQ by exact Hk. pose proof (HQ k Hk). rewrite Eleft by lia.
           destruct (Nat.lt_ge_cases x c) as [G|G]; [rewrite Tlow by exact G; reflexivity|]. pose proof (tr_high c i x Hi1 G).
           destruct (Nat.ltb_spec k x), (Nat.ltb_spec k (tr c i x)); try lia. reflexivity.
         - unfold ple_e. rewrite EQ by exact Hk. rewrite Elow by assumption. reflexivity. }
    rewrite xorb_assoc. f_equal. rewrite (tr_leb c i x Hi1). unfold raw_l, ple_e. rewrite EQc.
    destruct (Nat.lt_trichotomy x c) as [G|[->|G]].
    + destruct (Nat.leb_spec c x), (Nat.ltb_spec c x), (Nat.eqb_spec x c), (Nat.leb_spec (S c) x); try lia. reflexivity.
    + rewrite Nat.leb_refl, Nat.ltb_irrefl, Nat.eqb_refl. destruct (Nat.leb_spec (S c) c); [lia|]. cbn [andb]. rewrite xorb_false_r.
      assert (Tc : tr c i c = i) by (unfold tr; rewrite Nat.eqb_refl; reflexivity). rewrite E, Tc, Nat.ltb_irrefl by lia. cbn [andb].
      destruct (Nat.ltb_spec y q).
      * destruct (Nat.leb_spec j y); cbn [andb]; [apply Hmin; lia|reflexivity].
      * destruct (Nat.leb_spec j y); [|lia]. cbn [andb]. destruct (Nat.eqb_spec y q) as [->|]; [exact Hb|reflexivity].
    + destruct (Nat.leb_spec c x), (Nat.ltb_spec c x), (Nat.leb_spec (S c) x); try lia. cbn [andb]. rewrite Eleft by lia. rewrite !E by lia.
      destruct (Nat.ltb_spec c x); [|lia]. pose proof (tr_high c i x Hi1 ltac:(lia)).
      destruct (Nat.ltb_spec y q).
      * destruct (Nat.leb_spec (S q) y); [lia|]. rewrite andb_false_r. cbn [andb xorb]. destruct (Nat.leb_spec j y); cbn [andb]; [apply Hmin; auto|reflexivity].
      * destruct (Nat.leb_spec j y); [|lia]. cbn [andb]. destruct (Nat.eqb_spec y q) as [->|].
        -- destruct (Nat.leb_spec (S q) q); [lia|]. cbn [andb]. rewrite xorb_false_r, andb_true_r. reflexivity.
        -- destruct (Nat.leb_spec (S q) y), (Nat.ltb_spec q y); try lia. cbn [andb].
           rewrite Nat.ltb_irrefl. cbn [andb]. replace (tr c i c) with i by (unfold tr; rewrite Nat.eqb_refl; reflexivity).
           destruct (bitat A (tr c i x) q), (bitat A (tr c i x) y), (bitat A i y); reflexivity.
  - intros x y Hx Hy Hne. destruct (Nat.eq_dec x c) as [->|].
    + rewrite EQc in Hy. rewrite Eleft by lia. replace (tr c i c) with i by (unfold tr; rewrite Nat.eqb_refl; reflexivity).
      destruct (Nat.lt_ge_cases y j); [apply Z2; auto|apply Hmin; auto]. intros t Ht. rewrite <- EQ by exact Ht. apply Hne, Ht.
    + rewrite EQ in Hy by lia. pose proof (HQ x ltac:(lia)). rewrite Elow by lia. apply Z1; [lia|exact Hy|].
      intros t Ht. rewrite <- EQ by lia. apply Hne, Ht.
  - intros x y Hx1 Hx2 Hy Hne. pose proof (Hne c ltac:(lia)) as Hc. rewrite EQc in Hc. rewrite Eleft by lia.
    pose proof (tr_high c i x Hi1 ltac:(lia)).
    destruct (Nat.lt_ge_cases y j); [apply Z2; auto|apply Hmin; auto; lia]. intros t Ht. rewrite <- EQ by exact Ht. apply Hne. lia.
Qed.

Definition fin_ple (m n c : nat) (A0 : fmat) (A : mzd) (P Q : list nat) : Prop :=
  exists j, part_ple m n c j A0 A P Q /\ forall x y, c <= x -> x < m -> j <= y -> y < n -> bitat A x y = false.

Lemma ple_pivots_ok : forall m n A P Q (Post : mzd * list nat * list nat * nat -> Prop), okm m n A -> length P = m -> length Q = n ->
  (forall A' P' Q' r, fin_ple m n r (bitat A) A' P' Q' -> Post (A', P', Q', r)) -> wp (ple_pivots A P Q) Post.
Proof.
  intros m n A P Q Post HA LP LQ HPost. unfold ple_pivots. pose proof HA as (E1 & E2 & _). rewrite E1. apply wp_bind.
  apply (wp_for_ret _ _ (fun c st => let '(A', P', Q', j) := st in part_ple m n c j (bitat A) A' P' Q')).
  - lia.
  - refine (conj HA (conj LP (conj LQ (conj _ (conj _ (conj _ (conj _ (conj _ (conj _ (conj _ (conj _ _))))))))))); try (intros; lia).
    + split; intros; lia.
    + intros x y Hx Hy. cbn [perm xsum Nat.leb andb]. symmetry. apply xorb_false_l.
  - intros c [[[A' P'] Q'] j] _ Hc HP. pose proof HP as (HA' & LP' & LQ' & Cm & Cj & Jn & _).
    apply wp_bind, (first_pivot_ok m n); auto.
    + intros i q Hi1 Hi2 Hj1 Hj2 Hb Hmin. apply wp_bind, wp_aset; [lia|]. apply wp_bind, wp_aset; [lia|].
      apply wp_bind, (wp_row_swap m n); [exact HA'|lia|lia|exact Hi2|]. intros A1 HA1 EA1.
      apply wp_bind. match goal with |- wp ?e _ => change e with (clear_below A1 c q) end.
      apply (clear_below_ok m n); [exact HA1|lia|exact Hj2|]. intros A3 HA3 EA3. apply wp_ok. rewrite Nat.add_1_r.
      apply (part_ple_step m n c j (bitat A) A' P' Q' i q A3); auto. intros x y Hx Hy. rewrite EA3, !EA1, !rswap_tr by lia.
      replace (tr c i c) with i by (unfold tr; rewrite Nat.eqb_refl; reflexivity). reflexivity.
    + intros Hz. apply wp_ok. apply wp_ok. apply HPost. exists j. split; [exact HP|exact Hz].
  - intros [[[A' P'] Q'] j] HP. apply wp_ok. pose proof HP as ((F1 & _) & _). rewrite F1. apply HPost. exists j. split; [exact HP|]. intros; lia.
Qed.

Lemma ple_naive_ok : forall m n A P Q (Post : mzd * list nat * list nat * nat -> Prop), okm m n A -> length P = m -> length Q = n ->
  (forall A' P' Q' r, okm m n A' -> ple_of m n r (bitat A) (bitat A') P' Q' -> Post (A', P', Q', r)) -> wp (ple_naive A P Q) Post.
Proof.
  intros m n A P Q Post HA LP LQ HPost. unfold ple_naive. apply wp_bind, (ple_pivots_ok m n); auto. intros A1 P1 Q1 r [j [HP Hz]].
  pose proof HP as (HA1 & LP1 & LQ1 & Cm & Cj & Jn & HPv & HQv & HI & HE & Z1 & Z2). pose proof HA1 as (F1 & F2 & _). rewrite F1, F2.
  apply wp_bind, (rest_id_ok P1 r m); auto. intros P2 L2 EP. apply wp_bind, (rest_id_ok Q1 r n); [exact LQ1|lia|]. intros Q2 L3 EQ. apply wp_bind.
  assert (EQ1 : forall k, k < r -> at_ Q2 k = at_ Q1 k). { intros k Hk. rewrite EQ by lia. destruct (Nat.ltb_spec k r); [reflexivity|lia]. }
  assert (HI2 : incr (at_ Q2) r). { destruct HI as [I1 I2]. split; intros; rewrite !EQ1 by lia; [apply I1|apply I2]; assumption. }
  apply (wp_for_up _ (fun t A' => okm m n A' /\ forall x y, x < m -> bitat A' x y = bitat A1 x (perm (at_ Q2) (Nat.min (x + 1) t) y))).
  - lia.
  - split; [exact HA1|]. intros x y _. rewrite Nat.min_0_r. reflexivity.
  - intros t A' _ Ht [HA' E']. apply wp_bind, (wp_aget _ _ _ 0); [lia|]. change (nth t Q2 0) with (at_ Q2 t). pose proof (HQv t Ht) as HQt. rewrite <- EQ1 in HQt by exact Ht.
    assert (Hmin : forall x, t <= x -> Nat.min (x + 1) t = t /\ Nat.min (x + 1) (S t) = S t) by (intros; lia).
    assert (Hmin2 : forall x, x < t -> Nat.min (x + 1) t = x + 1 /\ Nat.min (x + 1) (S t) = x + 1) by (intros; lia).
    pose proof (proj1 HI2 t Ht) as Hle. pose proof HA' as (G1 & _). rewrite G1. destruct (Nat.ltb_spec t (at_ Q2 t)) as [G|G].
    + apply (col_swap_in_rows_ok m n); [exact HA'|lia|lia|lia|]. intros A2 HA2 E2. split; [exact HA2|]. intros x y Hx. rewrite E2.
      destruct (Nat.leb_spec t x) as [K|K]; cbn [andb].
      * destruct (Nat.ltb_spec x m); [|lia]. rewrite E' by exact Hx. destruct (Hmin x K) as [-> ->]. cbn [perm]. f_equal. f_equal.
        unfold tr. destruct (Nat.eqb_spec y (at_ Q2 t)), (Nat.eqb_spec y t); lia.
      * rewrite E' by exact Hx. destruct (Hmin2 x K) as [-> ->]. reflexivity.
    + apply wp_ok. split; [exact HA'|]. intros x y Hx. rewrite E' by exact Hx. destruct (Nat.le_gt_cases t x) as [K|K].
      * destruct (Hmin x K) as [-> ->]. cbn [perm]. replace (at_ Q2 t) with t by lia. rewrite tr_same. reflexivity.
      * destruct (Hmin2 x K) as [-> ->]. reflexivity.
  - intros A2 [HA2 E2]. apply wp_ok. apply HPost; [exact HA2|].
    assert (SQ : swaps n Q2).
    { split; [exact L3|]. intros k Hk. change (nth k Q2 0) with (at_ Q2 k). rewrite EQ by exact Hk. destruct (Nat.ltb_spec k r) as [G|G]; [|lia].
      pose proof (HQv k G). pose proof (proj1 HI k G). lia. }
    assert (SP : swaps m P2).
    { split; [exact L2|]. intros k Hk. change (nth k P2 0) with (at_ P2 k). rewrite EP by exact Hk. destruct (Nat.ltb_spec k r) as [G|G]; [|lia]. apply HPv, G. }
    assert (B1 : forall k t, k < r -> t < k + 1 -> at_ Q2 t <= at_ Q2 k).
    { intros k t Hk Ht. destruct (Nat.eq_dec t k) as [->|]; [lia|]. pose proof (proj2 HI2 t k ltac:(lia) Hk). lia. }
    refine (conj SP (conj SQ (conj Cm (conj _ (conj _ (conj (proj2 HI2) (conj _ (conj _ _)))))))).
    + lia.
    + intros k H1 H2. rewrite EP by exact H2. destruct (Nat.ltb_spec k r); [lia|reflexivity].
    + intros x y Hx Hy. rewrite (perm_tail (at_ P2) r m); try assumption.
      2: { intros k H1 H2. rewrite EP by lia. destruct (Nat.ltb_spec k r); lia. }
      rewrite (perm_ext (at_ P2) (at_ P1)).
      2: { intros k H1. rewrite EP by lia. destruct (Nat.ltb_spec k r); lia || reflexivity. }
      rewrite HE by assumption. replace (Nat.leb r x && Nat.leb j y && bitat A1 x y) with false.
      2: { destruct (Nat.leb_spec r x), (Nat.leb_spec j y); cbn [andb]; try reflexivity. symmetry. apply Hz; assumption. }
      rewrite xorb_false_r. unfold fmul. apply xsum_ext. intros k Hk. f_equal.
      * unfold raw_l, unit_lower. rewrite E2 by exact Hx. destruct (Nat.ltb_spec k x) as [G|G]; [|reflexivity].
        rewrite perm_incr; [rewrite EQ1 by exact Hk; reflexivity|apply (incr_le _ r); [exact HI2|lia]|lia].
      * unfold ple_e. rewrite EQ1 by exact Hk. rewrite E2 by lia. destruct (Nat.ltb_spec y (at_ Q1 k)) as [G|G]; [reflexivity|]. destruct (Nat.eqb_spec y (at_ Q1 k)); [reflexivity|].
        rewrite perm_beyond; [reflexivity|]. intros t Ht. split; [apply HI2; lia|]. specialize (B1 k t Hk ltac:(lia)). rewrite (EQ1 k) in B1 by exact Hk. lia.
    + intros x y Hx H1 H2 H3. rewrite E2 by lia. rewrite Nat.min_l by lia.
      assert (HI3 : incr (at_ Q2) (x + 1)) by (apply (incr_le _ r); [exact HI2|lia]).
      assert (AV : forall t, t < x + 1 -> perm (at_ Q2) (x + 1) y <> at_ Q2 t) by (intros; apply perm_avoids; [exact HI3|lia|assumption]).
      pose proof (perm_stays (at_ Q2) (x + 1) y (at_ Q2 x) HI3 (fun t Ht => B1 x t Hx Ht) H2) as S1.
      apply Z1; [exact Hx| |].
      * rewrite <- EQ1 by exact Hx. specialize (AV x ltac:(lia)). lia.
      * intros t Ht. rewrite <- EQ1 by lia. apply AV. lia.
    + intros x y Hx1 Hx2 Hy1 Hy2. rewrite E2 by exact Hx2. rewrite Nat.min_r by lia.
      assert (AV : forall t, t < r -> perm (at_ Q2) r y <> at_ Q1 t) by (intros; rewrite <- EQ1 by assumption; apply perm_avoids; [exact HI2|lia|assumption]).
      assert (perm (at_ Q2) r y < n). { apply perm_lt; [|exact Hy2]. intros k Hk. rewrite EQ1 by exact Hk. pose proof (HQv k Hk). lia. }
      destruct (Nat.lt_ge_cases (perm (at_ Q2) r y) j); [apply Z2; auto|apply Hz; auto].
Qed.
