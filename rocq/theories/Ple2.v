(** The cubic PLUQ factorisation; what a factorisation says about the rank *)
From Coq Require Import Arith NArith ZArith List Bool Lia ZifyNat FinFun.
From Verif Require Import Base Spec SpecRank Rank LinAlg ModelM4ri SpecM4ri M4ri1 M4riD ModelM4ri2 SpecM4ri2 ModelStrassen ModelTri ModelPle SpecTri SpecPle Ple1.
Import ListNotations.

Lemma first_pivot_ok : forall R C M row col (Q : option (nat * nat) -> Prop), okm R C M -> row <= R -> col <= C ->
  (forall i j, row <= i -> i < R -> col <= j -> j < C -> bitat M i j = true ->
     (forall x y, row <= x -> x < R -> col <= y -> y < j -> bitat M x y = false) -> Q (Some (i, j))) ->
  ((forall x y, row <= x -> x < R -> col <= y -> y < C -> bitat M x y = false) -> Q None) -> wp (first_pivot M row col) Q.
Proof.
  intros R C M row col Q HM Hrow Hcol H1 H2. unfold first_pivot. pose proof HM as (E1 & E2 & _). rewrite E1, E2. apply wp_bind.
  apply (wp_for_ret _ _ (fun j _ => forall x y, row <= x -> x < R -> col <= y -> y < j -> bitat M x y = false)); [exact Hcol|intros; lia| |].
  - intros j u Hj1 Hj2 Hz. apply wp_bind.
    apply (wp_for_ret _ _ (fun i _ => forall x, row <= x -> x < i -> bitat M x j = false)); [exact Hrow|intros; lia| |].
    + intros i v Hi1 Hi2 Hz2. apply wp_bind, (wp_read_bit R C); auto. apply wp_ok. destruct (bitat M i j) eqn:E.
      * apply wp_ok. apply H1; assumption.
      * intros x Hx1 Hx2. destruct (Nat.eq_dec x i) as [->|]; [exact E|]. apply Hz2; lia.
    + intros v Hz2. apply wp_ok. intros x y Hx1 Hx2 Hy1 Hy2. destruct (Nat.eq_dec y j) as [->|]; [apply Hz2; assumption|]. apply Hz; lia.
  - intros u Hz. apply wp_ok. apply H2. exact Hz.
Qed.

Lemma clear_below_ok : forall R C M row col (Q : mzd -> Prop), okm R C M -> row < R -> col < C ->
  (forall M', okm R C M' -> (forall i j, i < R -> j < C -> bitat M' i j =
     if Nat.ltb row i && Nat.ltb col j && bitat M i col then xorb (bitat M i j) (bitat M row j) else bitat M i j) -> Q M') ->
  wp (clear_below M row col) Q.
Proof.
  intros R C M row col Q HM Hrow Hcol HQ. unfold clear_below. pose proof HM as (E1 & E2 & _). rewrite E1, E2.
  destruct (Nat.ltb_spec (col + 1) C) as [Hc|Hc].
  - apply (wp_for_up _ (fun l M' => okm R C M' /\ forall i j, bitat M' i j =
      if Nat.ltb row i && Nat.ltb i l && Nat.ltb col j && bitat M i col then xorb (bitat M i j) (bitat M row j) else bitat M i j)).
    + lia.
    + split; [exact HM|]. intros i j. destruct (Nat.ltb_spec row i), (Nat.ltb_spec i (row + 1)); lia || reflexivity.
    + intros l M' Hl1 Hl2 [HM' E]. apply wp_bind, (wp_read_bit R C); auto. rewrite E.
      assert (X : forall b : bool, (if Nat.ltb row l && Nat.ltb l l && Nat.ltb col col && b then xorb (bitat M l col) (bitat M row col) else bitat M l col) = bitat M l col)
        by (intros b; rewrite Nat.ltb_irrefl, andb_false_r; reflexivity).
      rewrite X. destruct (bitat M l col) eqn:El.
      * apply (wp_row_add R C); auto. intros M2 HM2 E2'. split; [exact HM2|]. intros i j. rewrite E2', !E.
        destruct (Nat.eqb_spec i l) as [->|Hi].
        -- rewrite El. destruct (Nat.ltb_spec row l), (Nat.ltb_spec l l), (Nat.ltb_spec l (S l)), (Nat.ltb_spec row row), (Nat.ltb_spec col j), (Nat.leb_spec (col + 1) j); try lia; reflexivity.
        -- cbn [andb]. destruct (Nat.ltb_spec i l), (Nat.ltb_spec i (S l)); try lia; reflexivity.
      * apply wp_ok. split; [exact HM'|]. intros i j. rewrite E. destruct (Nat.ltb_spec i l), (Nat.ltb_spec i (S l)); try lia; try reflexivity.
        assert (i = l) by lia. subst i. rewrite El, !andb_false_r. reflexivity.
    + intros M' [HM' E]. apply HQ; [exact HM'|]. intros i j Hi _. rewrite E. destruct (Nat.ltb_spec i R); [|lia]. rewrite andb_true_r. reflexivity.
  - apply wp_ok. apply HQ; [exact HM|]. intros i j _ Hj. destruct (Nat.ltb_spec col j); [lia|]. rewrite andb_false_r. reflexivity.
Qed.

(** The factorisation after c steps *)
Definition part_ok (m n c : nat) (A0 : fmat) (A : mzd) (P Q : list nat) : Prop :=
  okm m n A /\ length P = m /\ length Q = n /\ c <= m /\ c <= n /\
  (forall k, k < c -> k <= at_ P k /\ at_ P k < m) /\ (forall k, k < c -> k <= at_ Q k /\ at_ Q k < n) /\
  forall x y, x < m -> y < n -> A0 (perm (at_ P) c x) (perm (at_ Q) c y) =
    xorb (xsum c (fun k => unit_lower (bitat A) x k && unit_upper (bitat A) k y)) (Nat.leb c x && Nat.leb c y && bitat A x y).

Lemma at_upd : forall P c v k, c < length P -> at_ (upd P c v) k = if Nat.eqb k c then v else at_ P k.
Proof. intros. unfold at_. rewrite nth_upd by assumption. destruct (Nat.eqb_spec k c); reflexivity. Qed.

Lemma tr_low : forall c i x, c <= i -> x < c -> tr c i x = x.
Proof. intros. unfold tr. destruct (Nat.eqb_spec x c); [lia|]. destruct (Nat.eqb_spec x i); [lia|reflexivity]. Qed.
Lemma tr_high : forall c i x, c <= i -> c <= x -> c <= tr c i x.
Proof. intros. unfold tr. destruct (Nat.eqb_spec x c); [lia|]. destruct (Nat.eqb_spec x i); lia. Qed.
Lemma tr_leb : forall c i x, c <= i -> Nat.leb c (tr c i x) = Nat.leb c x.
Proof.
  intros c i x H. destruct (Nat.leb_spec c x) as [G|G].
  - apply Nat.leb_le, tr_high; assumption.
  - rewrite tr_low by assumption. apply Nat.leb_gt. exact G.
Qed.

Lemma part_step : forall m n c A0 A P Q i j A' , part_ok m n c A0 A P Q -> c <= i -> i < m -> c <= j -> j < n -> bitat A i j = true ->
  okm m n A' ->
  (forall x y, x < m -> y < n -> bitat A' x y =
     if Nat.ltb c x && Nat.ltb c y && bitat A (tr c i x) j then xorb (bitat A (tr c i x) (tr c j y)) (bitat A i (tr c j y)) else bitat A (tr c i x) (tr c j y)) ->
  part_ok m n (S c) A0 A' (upd P c i) (upd Q c j).
Proof.
  intros m n c A0 A P Q i j A' (HA & LP & LQ & Cm & Cn & HP & HQ & HE) Hi Him Hj Hjn Hb HA' E'.
  refine (conj HA' (conj _ (conj _ (conj _ (conj _ (conj _ (conj _ _))))))); [rewrite length_upd; exact LP|rewrite length_upd; exact LQ|lia|lia| | |].
  - intros k Hk. rewrite at_upd by lia. destruct (Nat.eqb_spec k c) as [->|]; [lia|]. apply HP. lia.
  - intros k Hk. rewrite at_upd by lia. destruct (Nat.eqb_spec k c) as [->|]; [lia|]. apply HQ. lia.
  - intros x y Hx Hy. cbn [perm]. rewrite !at_upd by lia. rewrite !Nat.eqb_refl.
    rewrite (perm_ext (at_ (upd P c i)) (at_ P)), (perm_ext (at_ (upd Q c j)) (at_ Q)).
    2: { intros k Hk. rewrite at_upd by lia. destruct (Nat.eqb_spec k c); [lia|reflexivity]. }
    2: { intros k Hk. rewrite at_upd by lia. destruct (Nat.eqb_spec k c); [lia|reflexivity]. }
    rewrite HE by (apply tr_lt; lia). rewrite !tr_leb by assumption. cbn [xsum].
    rewrite (xsum_ext c _ (fun k => unit_lower (bitat A') x k && unit_upper (bitat A') k y)).
    + assert (Ecc : bitat A (tr c i c) (tr c j c) = true).
      { unfold tr. rewrite !Nat.eqb_refl. exact Hb. }
      assert (Ec : tr c i c = i) by (unfold tr; rewrite Nat.eqb_refl; reflexivity).
      assert (Ecj : tr c j c = j) by (unfold tr; rewrite Nat.eqb_refl; reflexivity).
      rewrite <- xorb_assoc_reverse || idtac.
      match goal with |- xorb ?a ?b = _ => assert (G : b = xorb (unit_lower (bitat A') x c && unit_upper (bitat A') c y) (Nat.leb (S c) x && Nat.leb (S c) y && bitat A' x y)) end.
      2: { rewrite G. destruct (unit_lower (bitat A') x c && unit_upper (bitat A') c y), (xsum c (fun k => unit_lower (bitat A') x k && unit_upper (bitat A') k y)), (Nat.leb (S c) x && Nat.leb (S c) y && bitat A' x y); reflexivity. }
      unfold unit_lower, unit_upper. rewrite !E' by lia.
      change (Nat.ltb c x) with (Nat.leb (S c) x). change (Nat.ltb c y) with (Nat.leb (S c) y). change (Nat.ltb c c) with (Nat.leb (S c) c).
      destruct (Nat.leb_spec (S c) x) as [X|X], (Nat.leb_spec (S c) y) as [Y|Y], (Nat.leb_spec (S c) c) as [Z|Z]; try lia; cbn [andb].
      * destruct (Nat.leb_spec c x); [|lia]. destruct (Nat.leb_spec c y); [|lia]. cbn [andb]. rewrite Ec, Ecj.
        destruct (bitat A (tr c i x) j), (bitat A (tr c i x) (tr c j y)), (bitat A i (tr c j y)); reflexivity.
      * destruct (Nat.leb_spec c x); [|lia]. cbn [andb]. rewrite Ecj. destruct (Nat.leb_spec c y), (Nat.eqb_spec c y); try lia; cbn [andb].
        -- subst y. rewrite Ecj. destruct (bitat A (tr c i x) j); reflexivity.
        -- rewrite andb_false_r. reflexivity.
      * rewrite ?andb_false_r, Ec. destruct (Nat.leb_spec c x), (Nat.eqb_spec x c); try lia; cbn [andb]; [|reflexivity].
        subst x. rewrite Ec. destruct (Nat.leb_spec c y); [|lia]. destruct (bitat A i (tr c j y)); reflexivity.
      * destruct (Nat.leb_spec c x), (Nat.eqb_spec x c); try lia; cbn [andb]; [|reflexivity].
        destruct (Nat.leb_spec c y), (Nat.eqb_spec c y); try lia; cbn [andb]; [|reflexivity]. subst x y. rewrite Ecc. reflexivity.
    + intros k Hk. unfold unit_lower, unit_upper. rewrite !E' by lia. rewrite (tr_low c j k), (tr_low c i k) by assumption.
      replace (Nat.ltb c k) with false by (symmetry; apply Nat.ltb_ge; lia). rewrite !andb_false_r. cbn [andb].
      assert (X1 : Nat.ltb k (tr c i x) = Nat.ltb k x).
      { destruct (Nat.lt_ge_cases x c) as [G|G]; [rewrite tr_low by assumption; reflexivity|]. pose proof (tr_high c i x Hi G).
        destruct (Nat.ltb_spec k (tr c i x)), (Nat.ltb_spec k x); lia || reflexivity. }
      assert (X2 : Nat.eqb (tr c i x) k = Nat.eqb x k).
      { destruct (Nat.lt_ge_cases x c) as [G|G]; [rewrite tr_low by assumption; reflexivity|]. pose proof (tr_high c i x Hi G).
        destruct (Nat.eqb_spec (tr c i x) k), (Nat.eqb_spec x k); lia || reflexivity. }
      assert (Y1 : Nat.ltb k (tr c j y) = Nat.ltb k y).
      { destruct (Nat.lt_ge_cases y c) as [G|G]; [rewrite tr_low by assumption; reflexivity|]. pose proof (tr_high c j y Hj G).
        destruct (Nat.ltb_spec k (tr c j y)), (Nat.ltb_spec k y); lia || reflexivity. }
      assert (Y2 : Nat.eqb k (tr c j y) = Nat.eqb k y).
      { destruct (Nat.lt_ge_cases y c) as [G|G]; [rewrite tr_low by assumption; reflexivity|]. pose proof (tr_high c j y Hj G).
        destruct (Nat.eqb_spec k (tr c j y)), (Nat.eqb_spec k y); lia || reflexivity. }
      rewrite X1, X2, Y1, Y2. reflexivity.
Qed.

Lemma rest_id_ok : forall P c n (Q : list nat -> Prop), length P = n -> c <= n ->
  (forall P', length P' = n -> (forall k, k < n -> at_ P' k = if Nat.ltb k c then at_ P k else k) -> Q P') -> wp (rest_id P c n) Q.
Proof.
  intros P c n Q L Hc HQ. unfold rest_id.
  apply (wp_for_up _ (fun i P' => length P' = n /\ forall k, k < n -> at_ P' k = if Nat.ltb k c then at_ P k else if Nat.ltb k i then k else at_ P k)).
  - exact Hc.
  - split; [exact L|]. intros k Hk. destruct (Nat.ltb k c); reflexivity.
  - intros i P' Hi1 Hi2 [L' E]. apply wp_aset; [lia|]. split; [rewrite length_upd; exact L'|]. intros k Hk. rewrite at_upd by lia.
    destruct (Nat.eqb_spec k i) as [->|].
    + destruct (Nat.ltb_spec i c), (Nat.ltb_spec i (S i)); lia.
    + rewrite E by exact Hk. destruct (Nat.ltb_spec k c), (Nat.ltb_spec k i), (Nat.ltb_spec k (S i)); lia || reflexivity.
  - intros P' [L' E]. apply HQ; [exact L'|]. intros k Hk. rewrite E by exact Hk. destruct (Nat.ltb_spec k n); [|lia]. reflexivity.
Qed.

Lemma part_pluq : forall m n c A0 A P Q P' Q', part_ok m n c A0 A P Q ->
  (forall x y, c <= x -> x < m -> c <= y -> y < n -> bitat A x y = false) ->
  length P' = m -> (forall k, k < m -> at_ P' k = if Nat.ltb k c then at_ P k else k) ->
  length Q' = n -> (forall k, k < n -> at_ Q' k = if Nat.ltb k c then at_ Q k else k) ->
  pluq_of m n c A0 (bitat A) P' Q'.
Proof.
  intros m n c A0 A P Q P' Q' (HA & LP & LQ & Cm & Cn & HP & HQ & HE) Hz LP' EP LQ' EQ.
  split; [|split; [|split; [exact Cm|split; [exact Cn|]]]].
  - split; [exact LP'|]. intros k Hk. specialize (EP k Hk). unfold at_ at 1 in EP. rewrite EP. destruct (Nat.ltb_spec k c); [apply HP; assumption|lia].
  - split; [exact LQ'|]. intros k Hk. specialize (EQ k Hk). unfold at_ at 1 in EQ. rewrite EQ. destruct (Nat.ltb_spec k c); [apply HQ; assumption|lia].
  - intros x y Hx Hy.
    rewrite (perm_tail (at_ P') c m), (perm_tail (at_ Q') c n); try assumption.
    2: { intros k H1 H2. rewrite EQ by lia. destruct (Nat.ltb_spec k c); lia. }
    2: { intros k H1 H2. rewrite EP by lia. destruct (Nat.ltb_spec k c); lia. }
    rewrite (perm_ext (at_ P') (at_ P)), (perm_ext (at_ Q') (at_ Q)).
    2: { intros k H1. rewrite EQ by lia. destruct (Nat.ltb_spec k c); lia || reflexivity. }
    2: { intros k H1. rewrite EP by lia. destruct (Nat.ltb_spec k c); lia || reflexivity. }
    rewrite HE by assumption. unfold fmul. destruct (Nat.leb_spec c x), (Nat.leb_spec c y); cbn [andb]; rewrite ?Hz by assumption; apply xorb_false_r.
Qed.

Lemma pluq_naive_ok : forall m n A P Q (Post : mzd * list nat * list nat * nat -> Prop), okm m n A -> length P = m -> length Q = n ->
  (forall A' P' Q' r, okm m n A' -> pluq_of m n r (bitat A) (bitat A') P' Q' -> Post (A', P', Q', r)) -> wp (pluq_naive A P Q) Post.
Proof.
  intros m n A P Q Post HA LP LQ HPost. unfold pluq_naive. pose proof HA as (E1 & E2 & _). rewrite E2.
  set (fin := fun (st : mzd * list nat * list nat * nat) => let '(A', P', Q', c) := st in
    part_ok m n c (bitat A) A' P' Q' /\ forall x y, c <= x -> x < m -> c <= y -> y < n -> bitat A' x y = false).
  assert (Hfin : forall st, fin st -> wp (let '(A, P, Q, c) := st in P <- rest_id P c (mnrows A) ;; Q <- rest_id Q c (mncols A) ;; Ok (A, P, Q, c)) Post).
  { intros [[[A' P'] Q'] c] [HP Hz]. pose proof HP as (HA' & LP' & LQ' & Cm & Cn & _).
    pose proof HA' as (F1 & F2 & _). rewrite F1, F2. apply wp_bind, (rest_id_ok P' c m); auto. intros P2 L2 EP. apply wp_bind, (rest_id_ok Q' c n); auto. intros Q2 L3 EQ. apply wp_ok.
    apply HPost; [exact HA'|]. apply (part_pluq m n c (bitat A) A' P' Q'); assumption. }
  apply wp_bind.
  apply (wp_for_ret _ _ (fun c st => let '(A', P', Q') := st in part_ok m n c (bitat A) A' P' Q')).
  - lia.
  - split; [exact HA|]. split; [exact LP|]. split; [exact LQ|]. split; [lia|]. split; [lia|]. split; [intros; lia|]. split; [intros; lia|].
    intros x y Hx Hy. cbn [perm xsum Nat.leb andb]. symmetry. apply xorb_false_l.
  - intros c [[A' P'] Q'] _ Hc HP. pose proof HP as (HA' & LP' & LQ' & Cm & Cn & HPv & HQv & _).
    apply wp_bind, (first_pivot_ok m n); auto.
    + intros i j Hi1 Hi2 Hj1 Hj2 Hb _. apply wp_bind, wp_aset; [lia|]. apply wp_bind, wp_aset; [lia|].
      apply wp_bind, (wp_row_swap m n); [exact HA'|lia|lia|exact Hi2|]. intros A1 HA1 EA1.
      apply wp_bind, (col_swap_ok m n); [exact HA1|lia|exact Hj2|lia|]. intros A2 HA2 EA2.
      apply wp_bind, (clear_below_ok m n); [exact HA2|lia|exact Hc|]. intros A3 HA3 EA3. apply wp_ok.
      apply (part_step m n c (bitat A) A' P' Q' i j A3); auto. intros x y Hx Hy. rewrite EA3, !EA2, !EA1, !rswap_tr by lia.
      replace (tr c i c) with i by (unfold tr; rewrite Nat.eqb_refl; reflexivity).
      replace (tr c j c) with j by (unfold tr; rewrite Nat.eqb_refl; reflexivity). reflexivity.
    + intros Hz. apply wp_ok. apply (Hfin (A', P', Q', c)). split; [exact HP|exact Hz].
  - intros [[A' P'] Q'] HP. apply (Hfin (A', P', Q', n)). split; [exact HP|]. intros; lia.
Qed.

(** ** Rank *)
(** Only zero is mapped to zero by a unit triangular matrix *)
Lemma upper_left_zero : forall r n U (c : fvec), r <= n -> (forall y, y < n -> xsum r (fun k => c k && unit_upper U k y) = false) ->
  forall k, k < r -> c k = false.
Proof.
  intros r n U c Hr H. induction k as [k IH] using lt_wf_ind. intros Hk. specialize (H k ltac:(lia)).
  rewrite (xsum_single r k) in H; [|exact Hk|].
  - unfold unit_upper in H. rewrite Nat.ltb_irrefl, Nat.eqb_refl, andb_true_r in H. exact H.
  - intros k' Hk' Hne. destruct (Nat.lt_ge_cases k' k) as [G|G]; [rewrite IH by lia; reflexivity|].
    unfold unit_upper. destruct (Nat.ltb_spec k' k); [lia|]. destruct (Nat.eqb_spec k' k); [lia|]. apply andb_false_r.
Qed.
Lemma lower_left_zero : forall r L (c : fvec), (forall y, y < r -> xsum r (fun k => c k && unit_lower L k y) = false) ->
  forall k, k < r -> c k = false.
Proof.
  intros r L c H. assert (X : forall d k, k < r -> r - k <= d -> c k = false); [|intros k Hk; apply (X r); lia].
  induction d as [|d IH]; intros k Hk Hd; [lia|]. specialize (H k Hk). rewrite (xsum_single r k) in H; [|exact Hk|].
  - unfold unit_lower in H. rewrite Nat.ltb_irrefl, Nat.eqb_refl, andb_true_r in H. exact H.
  - intros k' Hk' Hne. destruct (Nat.lt_ge_cases k' k) as [G|G].
    + unfold unit_lower. destruct (Nat.ltb_spec k k'); [lia|]. destruct (Nat.eqb_spec k' k); [lia|]. apply andb_false_r.
    + rewrite IH by lia. reflexivity.
Qed.

Lemma swaps_lt : forall n P, swaps n P -> forall i, i < n -> i < n /\ at_ P i < n.
Proof. intros n P [_ H] i Hi. split; [exact Hi|apply H, Hi]. Qed.

Lemma pluq_rank : forall m n r A0 D P Q, pluq_of m n r A0 D P Q -> rank_is m n A0 r.
Proof.
  intros m n r A0 D P Q (SP & SQ & Hm & Hn & E). pose proof (swaps_lt m P SP) as WP. pose proof (swaps_lt n Q SQ) as WQ.
  assert (EA : forall x y, x < m -> y < n -> A0 x y = xsum r (fun k => unit_lower D (iperm (at_ P) m x) k && unit_upper D k (iperm (at_ Q) n y))).
  { intros x y Hx Hy. specialize (E (iperm (at_ P) m x) (iperm (at_ Q) n y) ltac:(apply iperm_lt; assumption) ltac:(apply iperm_lt; assumption)).
    cbv beta in E. rewrite !perm_iperm in E. exact E. }
  split.
  - exists (map (perm (at_ P) m) (seq 0 r)). split; [|split].
    + split.
      * apply FinFun.Injective_map_NoDup; [|apply seq_NoDup]. intros a b H. rewrite <- (iperm_perm (at_ P) m a), H. apply iperm_perm.
      * intros i Hi. apply in_map_iff in Hi. destruct Hi as (k & <- & Hk). apply in_seq in Hk. apply perm_lt; [exact WP|lia].
    + rewrite map_length. apply seq_length.
    + intros c Hc Hz i. destruct (c i) eqn:Ei; [|reflexivity]. exfalso. pose proof (Hc i Ei) as Hin. apply in_map_iff in Hin.
      destruct Hin as (k & <- & Hk). apply in_seq in Hk.
      assert (Z : forall k, k < r -> c (perm (at_ P) m k) = false); [|rewrite Z in Ei by lia; discriminate]. clear k Ei Hk.
      set (d := fun k => c (perm (at_ P) m k)). apply (lower_left_zero r D d).
      assert (Hd : forall k, k < m -> r <= k -> d k = false).
      { intros k K1 K2. destruct (d k) eqn:Ed; [|reflexivity]. exfalso. apply Hc in Ed. apply in_map_iff in Ed.
        destruct Ed as (k' & Ek & Hk'). apply in_seq in Hk'. apply (f_equal (iperm (at_ P) m)) in Ek. rewrite !iperm_perm in Ek. lia. }
      assert (S1 : forall f, xsum m (fun x => d x && f x) = xsum r (fun x => d x && f x)).
      { intros f. replace m with (r + (m - r)) at 1 by lia. rewrite xsum_add, (xsum_false (m - r)); [apply xorb_false_r|].
        intros k Hk. rewrite Hd by lia. reflexivity. }
      intros y Hy.
      apply (upper_left_zero r n D (fun y => xsum r (fun k => d k && unit_lower D k y))); [exact Hn| |exact Hy]. clear y Hy. intros y Hy.
      specialize (Hz (perm (at_ Q) n y) ltac:(apply perm_lt; assumption)). rewrite <- (xsum_perm m (at_ P) m) in Hz by exact WP.
      rewrite (xsum_ext m _ (fun x => d x && xsum r (fun k => unit_lower D x k && unit_upper D k y))) in Hz.
      2: { intros x Hx. unfold d. rewrite EA by (apply perm_lt; assumption). rewrite !iperm_perm. reflexivity. }
      rewrite S1 in Hz. rewrite <- Hz.
      rewrite (xsum_ext r (fun x => d x && xsum r (fun k => unit_lower D x k && unit_upper D k y)) (fun x => xsum r (fun k => d x && (unit_lower D x k && unit_upper D k y)))) by (intros; rewrite xsum_andb_l; reflexivity).
      rewrite xsum_swap. apply xsum_ext. intros k Hk. rewrite <- xsum_andb_r. apply xsum_ext. intros x Hx. symmetry. apply andb_assoc.
  - intros I HI Hind. apply (indep_bound m n A0 I r (fun k y => unit_upper D k (iperm (at_ Q) n y)) (fun x k => unit_lower D (iperm (at_ P) m x) k)); auto.
    intros i j Hi Hj. apply EA; [apply HI; exact Hi|exact Hj].
Qed.
