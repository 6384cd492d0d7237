(** genMatpair *)
From Coq Require Import Arith NArith List Bool Lia Setoid Morphisms.
From Verif Require Import Base Tables Model Spec LinAlg Mem Cons Elim Rand.
Import ListNotations.

(** ** Trails *)

Definition opf (o : trail_op) (A : fmat) : fmat :=
  let '(op, a, b) := o in
  if N.eqb op 0 then rswap (N.to_nat a) (N.to_nat b) A else radd (N.to_nat a) (N.to_nat b) A.
Definition valid_op (n : nat) (o : trail_op) : Prop :=
  let '(op, a, b) := o in N.to_nat a < n /\ N.to_nat b < n /\ N.to_nat a <> N.to_nat b.
(** all operations, oldest first *)
Fixpoint tapp (tr : trail) (A : fmat) : fmat :=
  match tr with [] => A | o :: tr' => opf o (tapp tr' A) end.
(** all operations, newest first *)
Fixpoint rep (tr : trail) (A : fmat) : fmat :=
  match tr with [] => A | o :: tr' => rep tr' (opf o A) end.

Lemma opf_ext : forall n o A B, valid_op n o -> feq n A B -> feq n (opf o A) (opf o B).
Proof.
  intros n [[op a] b] A B (H1 & H2 & H3) H. unfold opf. destruct (N.eqb op 0).
  - apply rswap_ext; auto.
  - apply radd_ext; auto.
Qed.
Lemma opf_as_mul : forall n o A, valid_op n o -> feq n (opf o A) (fmul n (opf o fid) A).
Proof.
  intros n [[op a] b] A (H1 & H2 & H3). unfold opf. destruct (N.eqb op 0).
  - apply rswap_as_mul; auto.
  - apply radd_as_mul; auto.
Qed.
Lemma opf_self_inverse : forall n o, valid_op n o -> inverse_of n (opf o fid) (opf o fid).
Proof.
  intros n [[op a] b] (H1 & H2 & H3). unfold opf. destruct (N.eqb op 0).
  - apply rswap_id_invertible; auto.
  - apply radd_id_invertible; auto.
Qed.
Lemma rep_ext : forall n tr A B, Forall (valid_op n) tr -> feq n A B -> feq n (rep tr A) (rep tr B).
Proof.
  intros n tr; induction tr as [|o tr IH]; intros A B HV H; simpl; auto.
  inversion HV; subst. apply IH; auto. apply opf_ext; auto.
Qed.
Lemma rep_as_mul : forall n tr A, Forall (valid_op n) tr ->
  feq n (rep tr A) (fmul n (rep tr fid) A).
Proof.
  intros n tr; induction tr as [|o tr IH]; intros A HV; simpl.
  - symmetry. apply fmul_id_l.
  - inversion HV; subst. rewrite (IH (opf o A)), (IH (opf o fid)) by auto.
    rewrite (opf_as_mul n o A) by auto. rewrite fmul_assoc. reflexivity.
Qed.
Lemma trail_inverse : forall n tr, Forall (valid_op n) tr ->
  inverse_of n (rep tr fid) (tapp tr fid).
Proof.
  intros n tr; induction tr as [|o tr IH]; intros HV; simpl.
  - apply inverse_of_fid.
  - inversion HV; subst.
    rewrite (rep_as_mul n tr (opf o fid)) by auto.
    rewrite (opf_as_mul n o (tapp tr fid)) by auto.
    apply inverse_of_mul; auto. apply opf_self_inverse; auto.
Qed.

Lemma rswap_comm : forall n i j A, feq n (rswap i j A) (rswap j i A).
Proof.
  intros n i j A r c _ _. unfold rswap. f_equal.
  destruct (Nat.eqb_spec r i) as [->|]; destruct (Nat.eqb_spec i j); subst; auto;
    try (destruct (Nat.eqb_spec r j); auto; fail).
Qed.

Lemma wp_replay : forall w tr m (Q : mat -> Prop),
  wfM w m -> Forall (valid_op (dim w)) tr ->
  (forall m', wfM w m' -> feq (dim w) (mbit w m') (rep tr (mbit w m)) -> Q m') ->
  wp (replay w tr m) Q.
Proof.
  intros w tr; induction tr as [|[[op a] b] tr IH]; intros m Q Hm HV HQ; simpl.
  - apply HQ; auto. reflexivity.
  - inversion HV as [|o tr0 Ho Htr]; subst. destruct Ho as (H1 & H2 & H3).
    apply wp_bind.
    assert (Hstep : forall m', wfM w m' -> feq (dim w) (mbit w m') (opf (op, a, b) (mbit w m)) ->
              wp (replay w tr m') Q).
    { intros m' Hm' HB. apply IH; auto. intros m2 Hm2 HB2. apply HQ; auto.
      rewrite HB2. cbn [rep]. apply rep_ext; auto. }
    unfold opf in Hstep. destruct (N.eqb op 0).
    + apply wp_swap_row_full; auto.
    + apply wp_xor_row_full; auto.
Qed.

(** ** The state of genMatpair *)

Definition GI (w : width) (g : gst) : Prop :=
  wfM w (g_t g) /\ wfM w (g_v g) /\ Forall (valid_op (dim w)) (g_tr g) /\
  feq (dim w) (mbit w (g_v g)) (tapp (g_tr g) fid).

Lemma push_ok : forall w op a b tr (Q : trail -> Prop),
  length tr < dim w * dim w -> a < dim w -> b < dim w -> op < 256 ->
  Q ((N.of_nat op, N.of_nat a, N.of_nat b) :: tr) -> wp (push w op a b tr) Q.
Proof.
  intros w op a b tr Q Hlen Ha Hb Hop HQ. unfold push.
  match goal with |- context [if ?c then _ else _] => assert (HL : c = true) end.
  { unfold trail, trail_op in *. apply N.ltb_lt. rewrite <- Nat2N.inj_mul. lia. }
  rewrite HL. apply wp_ok. pose proof (dim_le w).
  rewrite !N.mod_small by lia. exact HQ.
Qed.

(** a partial addition on T which is a full one *)
Lemma wp_g_add : forall w b j i g (Q : gst -> Prop),
  GI w g -> j < dim w -> i < dim w -> j <> i -> b <= nw w ->
  length (g_tr g) < dim w * dim w ->
  (forall c, c < dim w -> (c / wb w < b \/ nw w <= c / wb w) -> mbit w (g_t g) i c = false) ->
  (forall g', GI w g' ->
     feq (dim w) (mbit w (g_t g')) (radd j i (mbit w (g_t g))) ->
     feq (dim w) (mbit w (g_v g')) (radd j i (mbit w (g_v g))) ->
     length (g_tr g') = S (length (g_tr g)) -> g_inv g' = g_inv g -> Q g') ->
  wp (g_add w b j i g) Q.
Proof.
  intros w b j i g Q (H1 & H2 & H3 & H4) Hj Hi Hne Hb Hlen Hz HQ. unfold g_add.
  apply wp_bind. apply wp_xor_row_bits with (w := w); auto. intros t' Ht' Bt.
  apply wp_bind. apply wp_xor_row_full; auto. intros v' Hv' Bv.
  apply wp_bind. apply push_ok; auto; [lia|]. apply wp_ok.
  apply HQ; auto. split; [exact Ht'|]. split; [exact Hv'|]. cbn [g_tr g_v].
  split.
  - constructor; auto. unfold valid_op. rewrite !Nat2N.id. auto.
  - rewrite Bv. cbn [tapp opf]. change (N.eqb (N.of_nat 1) 0) with false. cbv iota.
    rewrite !Nat2N.id. apply radd_ext; auto.
Qed.

Lemma wp_g_swap : forall w b a c j i g (Q : gst -> Prop),
  GI w g -> j < dim w -> i < dim w -> j <> i -> b <= nw w ->
  ((a = i /\ c = j) \/ (a = j /\ c = i)) ->
  length (g_tr g) < dim w * dim w ->
  (forall k, k < dim w -> (k / wb w < b \/ nw w <= k / wb w) ->
     mbit w (g_t g) i k = mbit w (g_t g) j k) ->
  (forall g', GI w g' ->
     feq (dim w) (mbit w (g_t g')) (rswap i j (mbit w (g_t g))) ->
     feq (dim w) (mbit w (g_v g')) (rswap i j (mbit w (g_v g))) ->
     length (g_tr g') = S (length (g_tr g)) -> g_inv g' = g_inv g -> Q g') ->
  wp (g_swap w b a c j i g) Q.
Proof.
  intros w b a c j i g Q (H1 & H2 & H3 & H4) Hj Hi Hne Hb Hac Hlen Hz HQ. unfold g_swap.
  assert (Ha : a < dim w) by lia. assert (Hc : c < dim w) by lia.
  apply wp_bind. apply wp_swap_row_bits with (w := w); auto.
  { intros k Hk1 Hk2. destruct Hac as [[-> ->]|[-> ->]]; [|symmetry]; apply Hz; auto. }
  intros t' Ht' Bt.
  apply wp_bind. apply wp_swap_row_full; auto. intros v' Hv' Bv.
  apply wp_bind. apply push_ok; auto; [lia|]. apply wp_ok.
  assert (Bt2 : feq (dim w) (mbit w t') (rswap i j (mbit w (g_t g)))).
  { destruct Hac as [[-> ->]|[-> ->]]; [exact Bt|]. rewrite Bt. apply rswap_comm. }
  assert (Bv2 : feq (dim w) (mbit w v') (rswap i j (mbit w (g_v g)))).
  { destruct Hac as [[-> ->]|[-> ->]]; [exact Bv|]. rewrite Bv. apply rswap_comm. }
  apply HQ; auto. split; [exact Ht'|]. split; [exact Hv'|]. cbn [g_tr g_v].
  split.
  - constructor; auto. unfold valid_op. rewrite !Nat2N.id. auto.
  - rewrite Bv2. cbn [tapp opf]. change (N.eqb (N.of_nat 0) 0) with true. cbv iota.
    rewrite !Nat2N.id. rewrite (rswap_comm (dim w) i j). apply rswap_ext; auto.
Qed.

(** state during the forward elimination, column i *)
Definition FI (w : width) (A : fmat) (i : nat) (g : gst) : Prop :=
  GI w g /\ rowtr (dim w) A (mbit w (g_v g)) (mbit w (g_t g)) /\
  zb (dim w) i (mbit w (g_t g)).

Lemma FI_radd : forall w A i g g' j, i < j -> j < dim w -> FI w A i g -> GI w g' ->
  feq (dim w) (mbit w (g_t g')) (radd j i (mbit w (g_t g))) ->
  feq (dim w) (mbit w (g_v g')) (radd j i (mbit w (g_v g))) -> FI w A i g'.
Proof.
  intros w A i g g' j Hij Hj (H1 & H2 & H3) HG Bt Bv. symmetry in Bt, Bv.
  split; [exact HG|]. split.
  - apply (rowtr_ext _ _ _ _ _ _ Bv Bt). apply rowtr_radd; auto; lia.
  - apply (zb_ext (dim w) i _ _ ltac:(lia) Bt). apply zb_radd; auto.
Qed.

Lemma wp_g_elim : forall w A b i g (Q : gst -> Prop),
  wb w * b <= i -> i < wb w * (b + 1) -> b < nw w ->
  FI w A i g -> mbit w (g_t g) i i = true ->
  length (g_tr g) + (dim w - 1 - i) <= dim w * dim w ->
  (forall g', FI w A (S i) g' -> (piv i (mbit w (g_t g)) -> piv (S i) (mbit w (g_t g'))) ->
     length (g_tr g') <= length (g_tr g) + (dim w - 1 - i) -> g_inv g' = g_inv g -> Q g') ->
  wp (g_elim w b i g) Q.
Proof.
  intros w A b i g0 Q H1 H2 Hb HF Hii Hlen HQ.
  destruct (block_col w b i H1 H2 Hb) as [Hin Hdiv].
  unfold g_elim.
  apply wp_for_up with (I := fun j g => FI w A i g /\
    (piv i (mbit w (g_t g0)) -> piv i (mbit w (g_t g))) /\
    mbit w (g_t g) i i = true /\ col_done i j (mbit w (g_t g)) /\
    length (g_tr g) + (i + 1) <= length (g_tr g0) + j /\ g_inv g = g_inv g0).
  - lia.
  - split; [exact HF|]. split; [auto|]. split; [auto|]. split; [intros r Hr1 Hr2; lia|].
    split; [lia|auto].
  - clear HF Hii. intros j g Hj1 Hj2 (HF & Hp & Hii & Hc & Hl & Hinv).
    pose proof HF as (HG & HR & Hz). pose proof HG as (Ht & Hv & _ & _).
    apply wp_bind. apply wp_bit_test_col; auto using wfM_shape.
    destruct (mbit w (g_t g) j i) eqn:E.
    + apply wp_g_add; auto; try lia.
      { intros c Hc1 Hc2. apply (row_zero_left w (g_t g) b i); auto. }
      intros g' HG' Bt Bv Hl' Hinv'.
      split; [apply (FI_radd w A i g g' j); auto; lia|].
      symmetry in Bt.
      split; [intros Hp0; apply (piv_ext (dim w) i _ _ ltac:(lia) Bt); apply (piv_radd (dim w)); auto; lia|].
      split; [rewrite <- Bt by auto; unfold radd; destruct (Nat.eqb_spec i j); [lia|auto]|].
      split; [apply (col_done_ext (dim w) i (S j) _ _ Hin ltac:(lia) Bt);
              apply col_done_radd; auto; lia|].
      split; [lia|congruence].
    + apply wp_ok. split; [exact HF|]. split; [auto|]. split; [auto|].
      split; [apply col_done_skip; auto|]. split; [lia|auto].
  - intros g (HF' & Hp & Hii' & Hc & Hl & Hinv). apply HQ; auto.
    + destruct HF' as (HG & HR & Hz). split; [exact HG|]. split; [exact HR|]. apply zb_next; auto.
    + intros Hp0. apply piv_next; auto.
    + lia.
Qed.

Lemma wp_g_repair : forall w A b i g s (Q : gst * world -> Prop),
  wb w * b <= i -> i < wb w * (b + 1) -> b < nw w -> i < dim w - 1 ->
  FI w A i g -> (forall r, i <= r -> r < dim w -> mbit w (g_t g) r i = false) ->
  length (g_tr g) + (dim w - i) <= dim w * dim w ->
  (forall g' s', FI w A (S i) g' ->
     length (g_tr g') <= length (g_tr g) + (dim w - i) -> g_inv g' = g_inv g -> Q (g', s')) ->
  wp (g_repair w b i g s) Q.
Proof.
  intros w A b i g0 s Q H1 H2 Hb Hi HF Hc0 Hlen HQ.
  destruct (block_col w b i H1 H2 Hb) as [Hin Hdiv].
  unfold g_repair. destruct (cus_random s) as [a s1].
  unfold urem at 1. destruct (N.eqb_spec (N.of_nat (dim w - 1 - i)) 0) as [E|E]; [lia|].
  cbn [bind]. cbv zeta.
  set (p := i + 1 + N.to_nat (a mod N.of_nat (dim w - 1 - i))).
  assert (Hp : i < p /\ p < dim w).
  { pose proof (N.mod_lt a (N.of_nat (dim w - 1 - i)) E) as HM. unfold p.
    revert HM. generalize (a mod N.of_nat (dim w - 1 - i))%N. intros x HM. lia. }
  pose proof HF as (HG & HR & Hz). pose proof HG as (Ht & Hv & _ & _).
  apply wp_bind. apply wp_g_swap; auto; try lia.
  { intros k Hk1 Hk2. rewrite !(row_zero_left w (g_t g0) b i); auto; lia. }
  intros g1 HG1 Bt1 Bv1 Hl1 Hi1.
  assert (HF1 : FI w A i g1).
  { symmetry in Bt1, Bv1. split; [exact HG1|]. split.
    - apply (rowtr_ext _ _ _ _ _ _ Bv1 Bt1). apply rowtr_rswap; auto; lia.
    - apply (zb_ext (dim w) i _ _ ltac:(lia) Bt1). apply zb_rswap; auto; lia. }
  assert (Hc1 : forall r, i <= r -> r < dim w -> mbit w (g_t g1) r i = false).
  { intros r Hr1 Hr2. rewrite Bt1 by auto. unfold rswap.
    destruct (Nat.eqb_spec r i); [apply Hc0; lia|].
    destruct (Nat.eqb_spec r p); apply Hc0; lia. }
  apply wp_for_up with (I := fun j (gs : gst * world) => FI w A i (fst gs) /\
     (forall r, i <= r -> r < dim w -> mbit w (g_t (fst gs)) r i = false) /\
     length (g_tr (fst gs)) + (i + 1) <= length (g_tr g1) + j /\ g_inv (fst gs) = g_inv g0).
  - lia.
  - cbn [fst]. split; [exact HF1|]. split; [auto|]. split; [lia|auto].
  - intros j [g s2] Hj1 Hj2 (HF2 & Hc2 & Hl2 & Hi2). cbn [fst] in *.
    destruct (cus_random s2) as [a2 s3]. unfold urem.
    change (N.eqb 2 0) with false. cbv iota. cbn [bind].
    pose proof HF2 as (HG2 & HR2 & Hz2).
    destruct (N.eqb (a2 mod 2) 0).
    + apply wp_ok. cbn [fst]. split; [exact HF2|]. split; [auto|]. split; [lia|auto].
    + apply wp_bind. apply wp_g_add; auto; try lia.
      { intros c Hk1 Hk2. apply (row_zero_left w (g_t g) b i); auto. }
      intros g' HG' Bt Bv Hl' Hinv'. apply wp_ok. cbn [fst].
      split; [apply (FI_radd w A i g g' j); auto; lia|].
      split.
      { intros r Hr1 Hr2. rewrite Bt by auto. unfold radd.
        destruct (Nat.eqb_spec r j); rewrite !Hc2 by lia; reflexivity. }
      split; [lia|congruence].
  - intros [g s2] (HF2 & Hc2 & Hl2 & Hi2). cbn [fst] in *.
    apply HQ; auto.
    + destruct HF2 as (HG2 & HR2 & Hz2). split; [exact HG2|]. split; [exact HR2|].
      apply zb_next; auto. intros r Hr1 Hr2. apply Hc2; lia.
    + lia.
Qed.

(** bound of the trail after the columns below i *)
Definition flen (n i len : nat) : Prop := 2 * len + i * i <= i * (2 * n + 1).

Lemma flen_step : forall n i l1 l2, i < n -> flen n i l1 -> l2 <= l1 + (n - i) -> flen n (S i) l2.
Proof. unfold flen. intros. nia. Qed.
Lemma flen_room : forall n i l, i < n -> flen n i l -> l + (n - i) <= n * n.
Proof.
  unfold flen. intros n i l Hi H.
  assert (2 * l + 2 * (n - i) <= 2 * (n * n)); [|lia].
  assert (i * (2 * n + 1) - i * i + 2 * (n - i) <= 2 * (n * n)); [|lia].
  assert (exists d, n = i + 1 + d) as [d ->] by (exists (n - i - 1); lia).
  replace (i + 1 + d - i) with (1 + d) by lia. nia.
Qed.

Lemma wp_g_forward : forall w A g s (Q : gst * world -> Prop),
  FI w A 0 g -> g_tr g = [] -> g_inv g = true ->
  (forall g' s', FI w A (dim w) g' ->
     (g_inv g' = true -> piv (dim w) (mbit w (g_t g')) /\ invertible (dim w) A) ->
     (g_inv g' = false -> ~ invertible (dim w) A) ->
     2 * length (g_tr g') + 2 <= dim w * (dim w + 1) -> Q (g', s')) ->
  wp (g_forward w (g, s)) Q.
Proof.
  intros w A g0 s0 Q HF0 Htr0 Hinv0 HQ. unfold g_forward.
  pose (n := dim w).
  pose (I := fun i (gs : gst * world) =>
    FI w A i (fst gs) /\
    (g_inv (fst gs) = true -> piv i (mbit w (g_t (fst gs)))) /\
    (g_inv (fst gs) = false -> ~ invertible n A) /\
    flen n (if Nat.ltb i n then i else n - 1) (length (g_tr (fst gs)))).
  pose proof (dim_pos w) as Pd.
  apply wp_blocks_up with (I := I).
  - unfold I. cbn [fst]. split; [exact HF0|]. split; [intros _ k Hk; lia|].
    split; [congruence|]. rewrite Htr0. unfold flen. cbn [length].
    destruct (Nat.ltb 0 n); nia.
  - intros b i [g s] Hb Hi1 Hi2 Hin (HF & Hp & Hni & Hlen). cbn [fst] in *.
    destruct (Nat.ltb_spec i n) as [_|]; [|unfold n in *; lia].
    pose proof HF as (HG & HR & Hz). pose proof HG as (Ht & Hv & _ & _).
    pose proof (flen_room n i _ Hin Hlen) as Hroom. unfold n in Hroom.
    (* the step when at most n - i entries are added, for i < n - 1, and none for i = n - 1 *)
    assert (Hstep : forall l', l' <= length (g_tr g) + (if Nat.ltb i (n - 1) then n - i else 0) ->
              flen n (if Nat.ltb (S i) n then S i else n - 1) l').
    { intros l' Hl'. destruct (Nat.ltb_spec i (n - 1)), (Nat.ltb_spec (S i) n); try lia.
      - eapply flen_step; eauto.
      - replace (n - 1) with i by (unfold n in *; lia). unfold flen in *. lia. }
    apply wp_bind. apply wp_bit_test_col; auto using wfM_shape.
    destruct (mbit w (g_t g) i i) eqn:E.
    + apply wp_bind. apply wp_g_elim with (A := A); auto; [lia|].
      intros g' HF' Hp' Hl' Hinv'. apply wp_ok. unfold I. cbn [fst].
      split; [exact HF'|]. split; [intros Hx; apply Hp', Hp; congruence|].
      split; [intros Hx; apply Hni; congruence|].
      apply Hstep. destruct (Nat.ltb_spec i (n - 1)); unfold n in *; lia.
    + apply wp_bind.
      apply wp_find_up with (P := fun j => mbit w (g_t g) j i); [lia| | |].
      * intros j Hj1 Hj2. apply wp_bit_test_col; auto using wfM_shape.
      * intros j Hj1 Hj2 HPj _. apply wp_bind.
        apply wp_g_swap; auto; try lia.
        { intros k Hk1 Hk2. rewrite !(row_zero_left w (g_t g) b i); auto; lia. }
        intros g1 HG1 Bt1 Bv1 Hl1 Hinv1.
        assert (HF1 : FI w A i g1).
        { symmetry in Bt1, Bv1. split; [exact HG1|]. split.
          - apply (rowtr_ext _ _ _ _ _ _ Bv1 Bt1). apply rowtr_rswap; auto; lia.
          - apply (zb_ext (dim w) i _ _ ltac:(lia) Bt1). apply zb_rswap; auto; lia. }
        apply wp_bind. apply wp_g_elim with (A := A); auto.
        { rewrite Bt1 by auto. unfold rswap. rewrite Nat.eqb_refl. exact HPj. }
        { lia. }
        intros g' HF' Hp' Hl' Hinv'. apply wp_ok. unfold I. cbn [fst].
        split; [exact HF'|].
        split.
        { intros Hx. apply Hp'. symmetry in Bt1. apply (piv_ext (dim w) i _ _ ltac:(lia) Bt1).
          apply piv_rswap; [lia|]. apply Hp. congruence. }
        split; [intros Hx; apply Hni; congruence|].
        apply Hstep. destruct (Nat.ltb_spec i (n - 1)); unfold n in *; lia.
      * intros HN. cbv zeta.
        assert (Hc0 : forall r, i <= r -> r < dim w -> mbit w (g_t g) r i = false).
        { intros r Hr1 Hr2. destruct (Nat.eq_dec r i) as [->|]; auto. apply HN; lia. }
        assert (Hsing : ~ invertible n A).
        { destruct (g_inv g) eqn:Einv; auto.
          apply (no_pivot_singular n i A (mbit w (g_v g)) (mbit w (g_t g))); auto. }
        destruct (_ && _)%bool eqn:EB.
        -- apply wp_ok. unfold I. cbn [fst g_inv g_t g_v g_tr].
           apply andb_true_iff in EB. destruct EB as [EB1 EB2].
           apply negb_true_iff in EB2. rewrite Nat.ltb_ge in EB2.
           split.
           { split; [split; [exact Ht|split; [exact Hv|apply HG]]|]. split; [exact HR|].
             apply zb_next; auto. intros r Hr1 Hr2. apply Hc0; lia. }
           split; [congruence|]. split; [auto|].
           apply Hstep. lia.
        -- assert (Hi : i < dim w - 1).
           { apply andb_false_iff in EB. destruct EB as [EB|EB].
             - apply Nat.eqb_neq in EB. pose proof (dim_eq w). pose proof (wb_pos w). nia.
             - apply negb_false_iff in EB. apply Nat.ltb_lt in EB. exact EB. }
           apply wp_g_repair with (A := A); try assumption.
           intros g' s' HF' Hl' Hinv'. cbn [g_inv g_tr] in *. unfold I. cbn [fst].
           split; [exact HF'|]. split; [congruence|]. split; [auto|].
           apply Hstep. destruct (Nat.ltb_spec i (n - 1)); unfold n in *; lia.
  - intros [g' s'] (HF & Hp & Hni & Hlen). cbn [fst] in *. apply HQ; auto.
    + intros Hx. split; [auto|].
      destruct HF as (_ & HR & Hz).
      apply (unitri_invertible (dim w) A (mbit w (g_v g')) (mbit w (g_t g'))); auto.
    + destruct (Nat.ltb_spec (dim w) n); [unfold n in *; lia|]. unfold flen, n in *.
      assert (exists d, dim w = 2 + d) as [d Ed] by (exists (dim w - 2); lia).
      rewrite Ed in *. replace (2 + d - 1) with (1 + d) in Hlen by lia. nia.
Qed.

(** back substitution with trail: only the trail and the second matrix matter *)
Lemma wp_g_back : forall w g (Q : gst -> Prop),
  GI w g -> 2 * length (g_tr g) + 2 <= dim w * (dim w + 1) ->
  (forall g', GI w g' -> length (g_tr g') < dim w * dim w -> Q g') ->
  wp (g_back w g) Q.
Proof.
  intros w g0 Q HG Hlen HQ. unfold g_back. pose proof (dim_pos w) as Pd.
  apply wp_blocks_down with (I := fun t g => GI w g /\
     2 * length (g_tr g) + 2 + t * t <= dim w * dim w + dim w * dim w + t).
  - split; auto. nia.
  - intros b t g Hb Ht1 Ht2 Hin [HI Hl].
    apply wp_for_down with (I := fun j g => GI w g /\
      2 * length (g_tr g) + 2 + S t * S t + 2 * j <= dim w * dim w + dim w * dim w + S t + 2 * t).
    + lia.
    + split; auto. nia.
    + clear g HI Hl. intros j g _ Hj [(Gt & Gv & Gtr & Gb) Hl].
      apply wp_bind. apply wp_bit_test_col; auto using wfM_shape; [lia|].
      destruct (mbit w (g_t g) j t); [|apply wp_ok; split; [repeat (split; auto)|lia]].
      apply wp_bind. apply wp_xor_row_any with (w := w); auto; try lia. intros t' Ht'.
      apply wp_bind. apply wp_xor_row_full; auto; try lia. intros v' Hv' Bv.
      apply wp_bind. apply push_ok; auto; try lia.
      { replace (S t * S t) with (t * t + 2 * t + 1) in Hl by lia.
        assert (t <= t * t) by (destruct t; nia). clear - Hl H Hj. unfold trail, trail_op in *. lia. }
      apply wp_ok.
      split; [|cbn [g_tr length]; lia].
      split; [exact Ht'|]. split; [exact Hv'|]. cbn [g_tr g_v]. split.
      * constructor; auto. unfold valid_op. rewrite !Nat2N.id. lia.
      * rewrite Bv. cbn [tapp opf]. change (N.eqb (N.of_nat 1) 0) with false. cbv iota.
        rewrite !Nat2N.id. apply radd_ext; auto. lia.
    + intros g' [HI' Hl']. split; auto. nia.
  - intros g' [HI Hl]. apply HQ; auto. lia.
Qed.

(** the matrix drawn by genMatpair *)
Definition drawn (e : endian) (w : width) (s : world) : mat :=
  mk w (fun i k => relem e w (reseed (reseed s)) (i * nw w + k)).

Lemma genMatpair_trail_wp : forall e w m v s, shapeM w m -> shapeM w v ->
  wp (genMatpair_trail e w m v s) (fun r => let '((m', v', s'), tr) := r in
    wfM w m' /\ wfM w v' /\ inverse_of (dim w) (mbit w m') (mbit w v') /\
    (invertible (dim w) (mbit w (drawn e w s)) -> m' = drawn e w s) /\
    length tr < dim w * dim w /\ Forall (valid_op (dim w)) tr).
Proof.
  intros e w m v s Hm Hv. unfold genMatpair_trail. cbv zeta.
  rewrite !identityM_ok by auto. cbn [bind].
  rewrite randM_ok by apply typed_fresh_m. cbn [bind].
  fold (drawn e w s). set (tmp := drawn e w s).
  assert (Htmp : wfM w tmp) by apply wf_rand.
  rewrite copyM_ok by auto using shape_fresh_m, wfM_shape. cbn [bind].
  set (id := mk w (id_word w)). set (s1 := adv (reseed (reseed s)) (draws w * (dim w * nw w))).
  apply wp_bind. apply wp_g_forward with (A := mbit w tmp).
  - split; [|split].
    + split; [exact Htmp|]. split; [apply wf_id|]. split; [constructor|]. apply mbit_id.
    + apply (rowtr_ext (dim w) _ fid _ (mbit w tmp));
        [symmetry; apply mbit_id|reflexivity|apply rowtr_id].
    + intros r k H; lia.
  - reflexivity.
  - reflexivity.
  - intros g s2 (HG & HR & Hz) Htrue Hfalse Hlen. destruct HG as (Gt & Gv & Gtr & Gb).
    destruct (g_inv g) eqn:Einv.
    + destruct (Htrue eq_refl) as [Hp HI].
      apply wp_bind. apply wp_back_subst with (A := mbit w tmp); auto.
      intros m' v' Hm' Hv' [HV HR'] Hid. apply wp_bind.
      rewrite copyM_ok; [|apply wfM_shape; exact Htmp|apply shape_mk]. apply wp_ok. apply wp_ok.
      cbn [snd]. split; [exact Htmp|]. split; [exact Hv'|].
      split; [|split; [auto|split; [pose proof (dim_pos w); nia|exact Gtr]]].
      apply invertible_of_left; auto. rewrite <- HR'. exact Hid.
    + specialize (Hfalse eq_refl).
      apply wp_bind. apply wp_g_back; [repeat (split; auto)|exact Hlen|].
      intros g' (Gt' & Gv' & Gtr' & Gb') Hl'.
      apply wp_bind. apply wp_replay; [apply wf_id|exact Gtr'|].
      intros m' Hm' HB. apply wp_ok.
      split; [exact Hm'|]. split; [exact Gv'|].
      split; [|split; [contradiction|split; [exact Hl'|exact Gtr']]].
      assert (HB2 : feq (dim w) (mbit w m') (rep (g_tr g') fid)).
      { apply (feq_trans _ _ _ _ HB). apply rep_ext; [exact Gtr'|apply mbit_id]. }
      rewrite HB2, Gb'. apply trail_inverse; auto.
Qed.

Lemma genMatpair_wp : forall e w m v s, shapeM w m -> shapeM w v ->
  wp (genMatpair e w m v s) (fun r => let '(m', v', s') := r in
    wfM w m' /\ wfM w v' /\ inverse_of (dim w) (mbit w m') (mbit w v') /\
    (invertible (dim w) (mbit w (drawn e w s)) -> m' = drawn e w s)).
Proof.
  intros e w m v s Hm Hv. unfold genMatpair. apply wp_bind.
  eapply wp_mono; [apply genMatpair_trail_wp; auto|].
  intros [[[m' v'] s'] tr] (H1 & H2 & H3 & H4 & _). apply wp_ok. cbn [fst]. auto.
Qed.

(** the result does not depend on the old contents of the two buffers *)
Lemma genMatpair_old : forall e w m v m2 v2 s,
  shapeM w m -> shapeM w v -> shapeM w m2 -> shapeM w v2 ->
  genMatpair e w m v s = genMatpair e w m2 v2 s.
Proof.
  intros. unfold genMatpair, genMatpair_trail. cbv zeta. rewrite !identityM_ok by auto.
  reflexivity.
Qed.
