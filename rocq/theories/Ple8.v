(** The PLE factorisation of a matrix from those of its left part and of what is left of the right part *)
From Coq Require Import Arith NArith List Bool Lia.
From Verif Require Import Base Spec LinAlg ModelM4ri SpecM4ri M4ri1 M4riD ModelM4ri2 SpecM4ri2 ModelStrassen Strassen1 ModelTri ModelPle ModelPle2 SpecTri SpecPle SpecPle2 Ple1 Ple2 Ple3 Ple6 Ple7.
Import ListNotations.

Lemma perm_split : forall P P1 P2 r t x, (forall i, i < r -> P i = P1 i) -> (forall i, i < t -> P (r + i) = r + P2 i) ->
  perm P (r + t) x = perm P1 r (if Nat.ltb x r then x else r + perm P2 t (x - r)).
Proof.
  intros P P1 P2 r t. induction t as [|t IH]; intros x H1 H2.
  - rewrite Nat.add_0_r. cbn [perm]. rewrite (perm_ext P P1) by exact H1. f_equal. destruct (Nat.ltb_spec x r); lia.
  - replace (r + S t) with (S (r + t)) by lia. cbn [perm]. rewrite IH by (auto; intros; apply H2; lia). f_equal. rewrite H2 by lia.
    unfold tr. destruct (Nat.eqb_spec x (r + t)) as [->|N1].
    + destruct (Nat.ltb_spec (r + P2 t) r), (Nat.ltb_spec (r + t) r); try lia. replace (r + t - r) with t by lia. rewrite Nat.eqb_refl. f_equal. f_equal. lia.
    + destruct (Nat.eqb_spec x (r + P2 t)) as [->|N2].
      * destruct (Nat.ltb_spec (r + P2 t) r), (Nat.ltb_spec (r + t) r); try lia. replace (r + P2 t - r) with (P2 t) by lia.
        replace (r + t - r) with t by lia. destruct (Nat.eqb_spec (P2 t) t) as [->|]; [reflexivity|]. rewrite Nat.eqb_refl. reflexivity.
      * destruct (Nat.ltb_spec x r); [reflexivity|]. destruct (Nat.eqb_spec (x - r) t); [lia|]. destruct (Nat.eqb_spec (x - r) (P2 t)); [lia|]. reflexivity.
Qed.

(** The matrix after the recursion and before L is compressed *)
Definition joined (r1 n1 m : nat) (D0 D2 X : fmat) (P2 : nat -> nat) (x y : nat) : bool :=
  if Nat.ltb x r1 then (if Nat.ltb y n1 then D0 x y else X x (y - n1))
  else if Nat.ltb y r1 then D0 (r1 + perm P2 (m - r1) (x - r1)) y else if Nat.ltb y n1 then false else D2 (x - r1) (y - n1).

Lemma ple_combine : forall m n n1 r1 r2 A0 D0 X S D2 D P Q P1 Q1 P2 Q2, n1 <= n ->
  ple_of m n1 r1 A0 D0 P1 Q1 ->
  (forall x y, x < r1 -> y < n - n1 -> A0 (perm (at_ P1) m x) (n1 + y) = xsum r1 (fun k => unit_lower D0 x k && X k y)) ->
  (forall x y, x < m - r1 -> y < n - n1 -> S x y = xorb (A0 (perm (at_ P1) m (r1 + x)) (n1 + y)) (xsum r1 (fun k => D0 (r1 + x) k && X k y))) ->
  ple_of (m - r1) (n - n1) r2 S D2 P2 Q2 ->
  (forall x y, x < m -> y < n -> D x y = if Nat.ltb x r1 then joined r1 n1 m D0 D2 X (at_ P2) x y
     else moved_left r1 n1 (Nat.min (x - r1 + 1) r2) (joined r1 n1 m D0 D2 X (at_ P2) x) y) ->
  length P = m -> (forall i, i < m -> at_ P i = if Nat.ltb i r1 then at_ P1 i else r1 + at_ P2 (i - r1)) ->
  swaps n Q -> (forall i, i < r1 + r2 -> at_ Q i = if Nat.ltb i r1 then at_ Q1 i else n1 + at_ Q2 (i - r1)) ->
  ple_of m n (r1 + r2) A0 D P Q.
Proof.
  intros m n n1 r1 r2 A0 D0 X SS D2 D P Q P1 Q1 P2 Q2 Hn1 H1 HX HS H2 HD LP EP SQ EQ.
  destruct H1 as (SP1 & SQ1 & Rm & Rn & I1 & Q1i & E1 & Za & Zb). destruct H2 as (SP2 & SQ2 & Rm2 & Rn2 & I2 & Q2i & E2 & Zc & Zd).
  pose proof SP1 as [LP1 HP1]. pose proof SP2 as [LP2 HP2]. pose proof SQ1 as [LQ1 HQ1]. pose proof SQ2 as [LQ2 HQ2].
  set (xx := fun x => if Nat.ltb x r1 then x else r1 + perm (at_ P2) (m - r1) (x - r1)).
  assert (EPm : forall x, perm (at_ P) m x = perm (at_ P1) m (xx x)).
  { intros x. rewrite (perm_tail (at_ P1) r1 m) by assumption. replace m with (r1 + (m - r1)) at 1 by lia. apply perm_split.
    - intros i Hi. rewrite EP by lia. destruct (Nat.ltb_spec i r1); [reflexivity|lia].
    - intros i Hi. rewrite EP by lia. destruct (Nat.ltb_spec (r1 + i) r1); [lia|]. f_equal. f_equal. lia. }
  assert (Hxx : forall x, x < m -> xx x < m /\ (x < r1 -> xx x = x) /\ (r1 <= x -> xx x = r1 + perm (at_ P2) (m - r1) (x - r1) /\ perm (at_ P2) (m - r1) (x - r1) < m - r1)).
  { intros x Hx. unfold xx. destruct (Nat.ltb_spec x r1); [split; [lia|split; lia]|].
    assert (perm (at_ P2) (m - r1) (x - r1) < m - r1) by (apply perm_lt; [apply swaps_lt; exact SP2|lia]). split; [lia|split; lia]. }
  assert (HQ1' : forall k, k < r1 -> k <= at_ Q1 k /\ at_ Q1 k < n1) by (intros k Hk; apply HQ1; lia).
  assert (HQ2' : forall k, k < r2 -> k <= at_ Q2 k /\ at_ Q2 k < n - n1) by (intros k Hk; apply HQ2; lia).
  assert (EQa : forall k, k < r1 -> at_ Q k = at_ Q1 k) by (intros k Hk; rewrite EQ by lia; destruct (Nat.ltb_spec k r1); [reflexivity|lia]).
  assert (EQb : forall k, k < r2 -> at_ Q (r1 + k) = n1 + at_ Q2 k).
  { intros k Hk; rewrite EQ by lia; destruct (Nat.ltb_spec (r1 + k) r1); [lia|]. f_equal. f_equal. lia. }
  (* the bits of D *)
  assert (Da : forall x y, x < r1 -> y < n1 -> D x y = D0 x y).
  { intros x y Hx Hy. rewrite HD by lia. unfold joined. destruct (Nat.ltb_spec x r1), (Nat.ltb_spec y n1); try lia. reflexivity. }
  assert (Db : forall x y, x < r1 -> n1 <= y -> y < n -> D x y = X x (y - n1)).
  { intros x y Hx Hy Hy2. rewrite HD by lia. unfold joined. destruct (Nat.ltb_spec x r1), (Nat.ltb_spec y n1); try lia. reflexivity. }
  assert (Dc : forall x y, r1 <= x -> x < m -> y < r1 -> D x y = D0 (xx x) y).
  { intros x y Hx Hx2 Hy. rewrite HD by lia. unfold moved_left, joined, xx. destruct (Nat.ltb_spec x r1), (Nat.ltb_spec y r1); try lia. reflexivity. }
  assert (Dd : forall x k, r1 <= x -> x < m -> k < Nat.min (x - r1 + 1) r2 -> D x (r1 + k) = D2 (x - r1) k).
  { intros x k Hx Hx2 Hk. rewrite HD by lia. unfold moved_left, joined.
    destruct (Nat.ltb_spec x r1), (Nat.ltb_spec (r1 + k) r1), (Nat.ltb_spec (r1 + k) (r1 + Nat.min (x - r1 + 1) r2)); try lia.
    destruct (Nat.ltb_spec (r1 + k + (n1 - r1)) r1), (Nat.ltb_spec (r1 + k + (n1 - r1)) n1); try lia. f_equal. lia. }
  assert (De : forall x y, r1 <= x -> x < m -> r1 + Nat.min (x - r1 + 1) r2 <= y -> y < n -> D x y = if Nat.ltb y (n1 + Nat.min (x - r1 + 1) r2) then false else D2 (x - r1) (y - n1)).
  { intros x y Hx Hx2 Hy Hy2. rewrite HD by lia. unfold moved_left, joined.
    destruct (Nat.ltb_spec x r1), (Nat.ltb_spec y r1), (Nat.ltb_spec y (r1 + Nat.min (x - r1 + 1) r2)); try lia.
    destruct (Nat.ltb_spec y (n1 + Nat.min (x - r1 + 1) r2)); [reflexivity|]. destruct (Nat.ltb_spec y n1); [lia|reflexivity]. }
  assert (UL1 : forall x k, x < m -> k < r1 -> unit_lower D x k = unit_lower D0 (xx x) k).
  { intros x k Hx Hk. destruct (Hxx x Hx) as (X1 & X2 & X3). destruct (Nat.lt_ge_cases x r1) as [G|G].
    - rewrite X2 by exact G. unfold unit_lower. rewrite Da by lia. reflexivity.
    - destruct (X3 G) as [X4 X5]. unfold unit_lower. rewrite Dc by assumption. destruct (Nat.ltb_spec k x), (Nat.ltb_spec k (xx x)); try lia. reflexivity. }
  refine (conj _ (conj SQ (conj _ (conj _ (conj _ (conj _ (conj _ (conj _ _)))))))).
  - split; [exact LP|]. intros i Hi. change (nth i P 0) with (at_ P i). rewrite EP by exact Hi. destruct (Nat.ltb_spec i r1) as [G|G]; [apply HP1; exact Hi|].
    destruct (HP2 (i - r1) ltac:(lia)). unfold at_. lia.
  - lia.
  - lia.
  - intros i Hi1 Hi2. rewrite EP by exact Hi2. destruct (Nat.ltb_spec i r1); [lia|]. rewrite I2 by lia. lia.
  - intros i k Hik Hk. rewrite !EQ by lia. destruct (Nat.ltb_spec i r1) as [G|G], (Nat.ltb_spec k r1) as [K|K].
    + apply Q1i; assumption.
    + destruct (HQ1' i G). lia.
    + lia.
    + pose proof (Q2i (i - r1) (k - r1)). lia.
  - intros x y Hx Hy. rewrite EPm. destruct (Hxx x Hx) as (X1 & X2 & X3). unfold fmul. rewrite xsum_add.
    destruct (Nat.lt_ge_cases y n1) as [G|G].
    + rewrite (E1 (xx x) y X1 G). unfold fmul. rewrite (xsum_false r2).
      2: { intros k Hk. unfold ple_e. rewrite EQb by exact Hk. destruct (Nat.ltb_spec y (n1 + at_ Q2 k)); [apply andb_false_r|lia]. }
      rewrite xorb_false_r. apply xsum_ext. intros k Hk. f_equal; [symmetry; apply UL1; assumption|].
      unfold ple_e. rewrite EQa by exact Hk. rewrite Da by assumption. reflexivity.
    + assert (S1 : xsum r1 (fun k => unit_lower D x k && ple_e D (at_ Q) k y) = xsum r1 (fun k => unit_lower D0 (xx x) k && X k (y - n1))).
      { apply xsum_ext. intros k Hk. rewrite UL1 by assumption. f_equal. unfold ple_e. rewrite EQa by exact Hk. destruct (HQ1' k Hk).
        destruct (Nat.ltb_spec y (at_ Q1 k)); [lia|]. destruct (Nat.eqb_spec y (at_ Q1 k)); [lia|]. apply Db; assumption. }
      rewrite S1. replace y with (n1 + (y - n1)) at 1 by lia. destruct (Nat.lt_ge_cases x r1) as [K|K].
      * rewrite X2 by exact K. rewrite HX by lia. rewrite (xsum_false r2); [rewrite xorb_false_r; reflexivity|].
        intros k Hk. unfold unit_lower. destruct (Nat.ltb_spec (r1 + k) x); [lia|]. destruct (Nat.eqb_spec x (r1 + k)); [lia|]. reflexivity.
      * destruct (X3 K) as [X4 X5].
        assert (S2 : xsum r2 (fun k => unit_lower D x (r1 + k) && ple_e D (at_ Q) (r1 + k) y) = SS (perm (at_ P2) (m - r1) (x - r1)) (y - n1)).
        { rewrite (E2 (x - r1) (y - n1) ltac:(lia) ltac:(lia)). unfold fmul. apply xsum_ext. intros k Hk. f_equal.
          - unfold unit_lower. destruct (Nat.ltb_spec (r1 + k) x), (Nat.ltb_spec k (x - r1)); try lia.
            + apply Dd; lia.
            + destruct (Nat.eqb_spec x (r1 + k)), (Nat.eqb_spec (x - r1) k); lia || reflexivity.
          - unfold ple_e. rewrite EQb by exact Hk. destruct (HQ2' k Hk).
            destruct (Nat.ltb_spec y (n1 + at_ Q2 k)), (Nat.ltb_spec (y - n1) (at_ Q2 k)); try lia; try reflexivity.
            destruct (Nat.eqb_spec y (n1 + at_ Q2 k)), (Nat.eqb_spec (y - n1) (at_ Q2 k)); try lia; try reflexivity.
            rewrite De by lia. replace (r1 + k - r1) with k by lia. destruct (Nat.ltb_spec y (n1 + Nat.min (k + 1) r2)); [lia|reflexivity]. }
        rewrite S2, HS by lia. rewrite <- X4.
        rewrite (xsum_ext r1 (fun k => unit_lower D0 (xx x) k && X k (y - n1)) (fun k => D0 (xx x) k && X k (y - n1))).
        2: { intros k Hk. unfold unit_lower. destruct (Nat.ltb_spec k (xx x)); [reflexivity|lia]. }
        destruct (A0 (perm (at_ P1) m (xx x)) (n1 + (y - n1))), (xsum r1 (fun k => D0 (xx x) k && X k (y - n1))); reflexivity.
  - intros x y Hx Hxy HyQ Hy. destruct (Nat.lt_ge_cases x r1) as [G|G].
    + rewrite EQa in HyQ by exact G. destruct (HQ1' x G). rewrite Da by lia. apply Za; lia.
    + replace x with (r1 + (x - r1)) in HyQ by lia. rewrite EQb in HyQ by lia. destruct (HQ2' (x - r1) ltac:(lia)). rewrite De by lia.
      destruct (Nat.ltb_spec y (n1 + Nat.min (x - r1 + 1) r2)); [reflexivity|]. apply Zc; lia.
  - intros x y Hx Hx2 Hy Hy2. rewrite De by lia. destruct (Nat.ltb_spec y (n1 + Nat.min (x - r1 + 1) r2)); [reflexivity|]. apply Zd; lia.
Qed.

Lemma perm_out : forall P m n x, n <= m -> (forall i, i < n -> i <= P i /\ P i < m) -> m <= x -> perm P n x = x.
Proof. intros P m n x Hn H Hx. apply perm_beyond. intros t Ht. specialize (H t Ht). lia. Qed.

(** Rows of zeroes below *)
Lemma ple_extend : forall m m0 n r A0 D P Q P', m <= m0 -> ple_of m n r A0 D P Q ->
  (forall x y, m <= x -> x < m0 -> y < n -> A0 x y = false) -> (forall x y, m <= x -> x < m0 -> y < n -> D x y = false) ->
  length P' = m0 -> (forall i, i < m0 -> at_ P' i = if Nat.ltb i m then at_ P i else i) -> ple_of m0 n r A0 D P' Q.
Proof.
  intros m m0 n r A0 D P Q P' Hm (SP & SQ & Rm & Rn & I1 & Qi & E & Za & Zb) ZA ZD LP EP. pose proof SP as [LP1 HP1].
  assert (EPm : forall x, perm (at_ P') m0 x = perm (at_ P) m x).
  { intros x. rewrite (perm_tail (at_ P') m m0); [|exact Hm|intros i H1 H2; rewrite EP by exact H2; destruct (Nat.ltb_spec i m); lia].
    apply perm_ext. intros i Hi. rewrite EP by lia. destruct (Nat.ltb_spec i m); [reflexivity|lia]. }
  refine (conj _ (conj SQ (conj _ (conj Rn (conj _ (conj Qi (conj _ (conj _ _)))))))).
  - split; [exact LP|]. intros i Hi. change (nth i P' 0) with (at_ P' i). rewrite EP by exact Hi. destruct (Nat.ltb_spec i m) as [G|G]; [|lia].
    destruct (HP1 i G). unfold at_. lia.
  - lia.
  - intros i H1 H2. rewrite EP by exact H2. destruct (Nat.ltb_spec i m); [apply I1; assumption|reflexivity].
  - intros x y Hx Hy. rewrite EPm. destruct (Nat.lt_ge_cases x m) as [G|G]; [apply (E x y G Hy)|].
    rewrite (perm_out (at_ P) m m x) by (try assumption; try lia; intros i Hi; apply HP1; exact Hi). rewrite ZA by assumption. symmetry. unfold fmul. apply xsum_false.
    intros k Hk. unfold unit_lower. destruct (Nat.ltb_spec k x); [|lia]. rewrite ZD by lia. reflexivity.
  - exact Za.
  - intros x y H1 H2 H3 H4. destruct (Nat.lt_ge_cases x m); [apply Zb; assumption|apply ZD; assumption].
Qed.

(** A0 and D may be replaced *)
Lemma ple_of_ext : forall m n r A0 A1 D D' P Q, ple_of m n r A0 D P Q -> (forall x y, x < m -> y < n -> A1 x y = A0 x y) ->
  (forall x y, x < m -> y < n -> D' x y = D x y) -> ple_of m n r A1 D' P Q.
Proof.
  intros m n r A0 A1 D D' P Q (SP & SQ & Rm & Rn & I1 & Qi & E & Za & Zb) EA ED.
  refine (conj SP (conj SQ (conj Rm (conj Rn (conj I1 (conj Qi (conj _ (conj _ _)))))))).
  - intros x y Hx Hy. rewrite EA by (exact Hy || (apply perm_lt; [apply swaps_lt; exact SP|exact Hx])). rewrite (E x y Hx Hy). unfold fmul. apply xsum_ext. intros k Hk.
    unfold unit_lower, ple_e. rewrite !ED by lia. reflexivity.
  - intros. rewrite ED by lia. apply Za; assumption.
  - intros. rewrite ED by lia. apply Zb; assumption.
Qed.

(** ** Windows whose last word is not full, with zeroes beyond the last column *)
Lemma win_pad : forall R C M lr hr r c (Q : mzd -> Prop), okm R C M -> lr + r <= R -> c <= C -> hr = lr + r ->
  (forall i j, i < r -> c <= j -> j < 64 * wwidth c -> bitat M (lr + i) j = false) ->
  (forall W, okm r c W -> (forall i j, i < r -> j < c -> bitat W i j = bitat M (lr + i) j) -> Q W) -> wp (win M lr 0 hr c) Q.
Proof.
  intros R C M lr hr r c Q HM Hr Hc Eh HZ HQ. apply (wp_wind R C M lr 0 hr c r c); [apply okm_okd; exact HM|reflexivity|exact Hr|exact Hc|exact Eh|reflexivity|].
  intros W HW EW EB. apply HQ; [|intros i j Hi Hj; rewrite EB by assumption; reflexivity].
  destruct HW as (W1 & W2 & W3 & W4). refine (conj W1 (conj W2 (conj W3 _))). intros i Hi. destruct (W4 i Hi) as [L B]. split; [exact L|].
  intros k b Hb. pose proof (B k b Hb) as H64. split; [exact H64|]. rewrite EW in Hb by exact Hi. destruct (Nat.ltb_spec k (wwidth c)); [|rewrite tb_0 in Hb; discriminate].
  rewrite Nat.div_0_l, Nat.add_0_l in Hb by lia. destruct (Nat.lt_ge_cases (64 * k + b) c) as [G|G]; [exact G|exfalso].
  specialize (HZ i (64 * k + b) Hi G ltac:(lia)). unfold bitat in HZ. rewrite rowbit_rw in HZ by exact H64. rewrite HZ in Hb. discriminate.
Qed.

Lemma put_pad : forall R C M W lr r c, okm R C M -> okm r c W -> 64 * wwidth c <= C -> lr + r <= R ->
  okm R C (put M W lr 0) /\
  forall i j, i < R -> j < C -> bitat (put M W lr 0) i j =
    if Nat.leb lr i && Nat.ltb i (lr + r) && Nat.ltb j (64 * wwidth c) then bitat W (i - lr) j else bitat M i j.
Proof.
  intros R C M W lr r c HM HW Hc Hr. set (W' := mkmzd r (64 * wwidth c) (mrows W)). pose proof HW as (W1 & W2 & W3 & W4).
  assert (EW : wwidth (64 * wwidth c) = wwidth c) by (unfold wwidth; rewrite (Nat.mul_comm 64); rewrite Nat.div_add_l by lia; replace (63 / 64) with 0 by reflexivity; lia).
  assert (Hle : c <= 64 * wwidth c). { unfold wwidth. pose proof (Nat.div_mod_eq (c + 63) 64). pose proof (Nat.mod_upper_bound (c + 63) 64 ltac:(lia)). lia. }
  assert (HW' : okm r (64 * wwidth c) W').
  { refine (conj eq_refl (conj eq_refl (conj W3 _))). intros i Hi. destruct (W4 i Hi) as [L B]. split; [rewrite EW; exact L|]. intros k b Hb. apply B in Hb. lia. }
  assert (EP : put M W lr 0 = put M W' lr 0). { unfold put. rewrite (okm_width r c W HW), (okm_width r _ W' HW'), EW, W1. reflexivity. }
  rewrite EP. destruct (put_ok R C M W' lr 0 r (64 * wwidth c) HM HW') as [H1 H2]; [split; [reflexivity|left; split; [rewrite Nat.mul_comm; apply Nat.mod_mul; lia|lia]]|exact Hr|].
  split; [exact H1|]. intros i j Hi Hj. rewrite H2 by assumption. destruct (Nat.leb_spec 0 j); [|lia]. rewrite Nat.add_0_l, Nat.sub_0_r, andb_true_r. reflexivity.
Qed.
