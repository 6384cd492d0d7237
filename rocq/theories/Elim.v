(** Gaussian elimination: isinvert and invs. *)
From Coq Require Import Arith NArith List Bool Lia Setoid Morphisms.
From Verif Require Import Base Tables Model Spec LinAlg Mem Cons.
Import ListNotations.

(** ** Pure facts about elimination *)

(** zero below the diagonal in the first i columns *)
Definition zb (n i : nat) (A : fmat) : Prop :=
  forall r k, k < i -> k < r -> r < n -> A r k = false.
(** ... and pivots *)
Definition piv (i : nat) (A : fmat) : Prop := forall k, k < i -> A k k = true.

(** during the elimination of column i: rows i+1 .. j-1 are done *)
Definition col_done (i j : nat) (A : fmat) : Prop :=
  forall r, i < r -> r < j -> A r i = false.

Lemma zb_ext : forall n i A B, i <= n -> feq n A B -> zb n i A -> zb n i B.
Proof. intros n i A B Hi H HA r k H1 H2 H3. rewrite <- H by lia. apply HA; auto. Qed.
Lemma piv_ext : forall n i A B, i <= n -> feq n A B -> piv i A -> piv i B.
Proof. intros n i A B Hi H HA k H1. rewrite <- H by lia. apply HA; auto. Qed.
Lemma col_done_ext : forall n i j A B, i < n -> j <= n -> feq n A B -> col_done i j A -> col_done i j B.
Proof. intros n i j A B Hi Hj H HA r H1 H2. rewrite <- H by lia. apply HA; auto. Qed.

Lemma zb_radd : forall n i j A, i < j -> j < n -> zb n i A -> zb n i (radd j i A).
Proof.
  intros n i j A Hij Hj HA r k H1 H2 H3. unfold radd.
  destruct (Nat.eqb_spec r j) as [->|]; [|apply HA; auto].
  rewrite (HA j k), (HA i k) by lia. reflexivity.
Qed.
Lemma piv_radd : forall n i j A, i < j -> j < n -> piv i A -> piv i (radd j i A).
Proof.
  intros n i j A Hij Hj HA k H1. unfold radd.
  destruct (Nat.eqb_spec k j) as [->|]; [lia|]. apply HA; auto.
Qed.
Lemma col_done_radd : forall i j A, i < j -> A j i = true -> A i i = true ->
  col_done i j A -> col_done i (S j) (radd j i A).
Proof.
  intros i j A Hij Hj Hi HA r H1 H2. unfold radd.
  destruct (Nat.eqb_spec r j) as [->|]; [rewrite Hj, Hi; reflexivity|].
  apply HA; lia.
Qed.
Lemma col_done_skip : forall i j A, A j i = false -> col_done i j A -> col_done i (S j) A.
Proof.
  intros i j A Hj HA r H1 H2. destruct (Nat.eq_dec r j) as [->|]; auto. apply HA; lia.
Qed.
Lemma zb_next : forall n i A, zb n i A -> col_done i n A -> zb n (S i) A.
Proof.
  intros n i A HA HC r k H1 H2 H3. destruct (Nat.eq_dec k i) as [->|].
  - apply HC; auto.
  - apply HA; lia.
Qed.
Lemma piv_next : forall i A, piv i A -> A i i = true -> piv (S i) A.
Proof.
  intros i A HA HC k H1. destruct (Nat.eq_dec k i) as [->|]; auto. apply HA; lia.
Qed.

Lemma zb_rswap : forall n i j A, i <= j -> j < n -> zb n i A -> zb n i (rswap i j A).
Proof.
  intros n i j A Hij Hj HA r k H1 H2 H3. unfold rswap. apply HA; auto.
  - destruct (Nat.eqb_spec r i); [lia|]. destruct (Nat.eqb_spec r j); lia.
  - destruct (Nat.eqb_spec r i); [lia|]. destruct (Nat.eqb_spec r j); lia.
Qed.
Lemma piv_rswap : forall i j A, i <= j -> piv i A -> piv i (rswap i j A).
Proof.
  intros i j A Hij HA k H1. unfold rswap.
  destruct (Nat.eqb_spec k i); [lia|]. destruct (Nat.eqb_spec k j); [lia|]. apply HA; auto.
Qed.

(** [B] comes from [A] by the row transformation [V] *)
Definition rowtr (n : nat) (A V B : fmat) : Prop :=
  invertible n V /\ feq n B (fmul n V A).

Lemma rowtr_ext : forall n A V V' B B', feq n V V' -> feq n B B' ->
  rowtr n A V B -> rowtr n A V' B'.
Proof.
  intros n A V V' B B' HV HB [H1 H2]. split.
  - rewrite <- HV. exact H1.
  - rewrite <- HV, <- HB. exact H2.
Qed.
Lemma rowtr_id : forall n A, rowtr n A fid A.
Proof.
  intros n A. split.
  - exists fid. apply inverse_of_fid.
  - symmetry. apply fmul_id_l.
Qed.
Lemma rowtr_radd : forall n A V B j i, j < n -> i < n -> j <> i ->
  rowtr n A V B -> rowtr n A (radd j i V) (radd j i B).
Proof.
  intros n A V B j i Hj Hi Hne [H1 H2]. split.
  - apply radd_invertible; auto.
  - rewrite <- radd_fmul. apply radd_ext; auto.
Qed.
Lemma rowtr_rswap : forall n A V B j i, j < n -> i < n ->
  rowtr n A V B -> rowtr n A (rswap i j V) (rswap i j B).
Proof.
  intros n A V B j i Hj Hi [H1 H2]. split.
  - apply rswap_invertible; auto.
  - rewrite <- rswap_fmul. apply rswap_ext; auto.
Qed.

(** no pivot in column i: A is singular *)
Lemma no_pivot_singular : forall n i A V B, i < n -> rowtr n A V B ->
  zb n i B -> piv i B -> (forall r, i <= r -> r < n -> B r i = false) ->
  ~ invertible n A.
Proof.
  intros n i A V B Hi [HV HB] Hz Hp Hc HA.
  destruct (missing_pivot_null n i B Hi Hp) as [x [Hx1 Hx2]]; auto.
  assert (HI : invertible n B) by (rewrite HB; apply invertible_mul; auto).
  destruct HI as [C [_ HC]].
  exact (null_no_left_inverse n B x Hx1 Hx2 C HC).
Qed.

(** unit upper triangular matrices are invertible: back substitution *)

(** columns >= i are unit columns *)
Definition unit_cols (n i : nat) (A : fmat) : Prop :=
  forall r c, r < n -> i <= c -> c < n -> A r c = fid r c.
(** rows j .. i-1 are zero in column i *)
Definition col_above (i j : nat) (A : fmat) : Prop :=
  forall r, j <= r -> r < i -> A r i = false.

Lemma unit_cols_ext : forall n i A B, feq n A B -> unit_cols n i A -> unit_cols n i B.
Proof. intros n i A B H HA r c H1 H2 H3. rewrite <- H by lia. apply HA; auto. Qed.
Lemma col_above_ext : forall n i j A B, i < n -> feq n A B -> col_above i j A -> col_above i j B.
Proof. intros n i j A B Hi H HA r H1 H2. rewrite <- H by lia. apply HA; auto. Qed.

Lemma unit_row : forall n i A c, zb n n A -> piv n A -> unit_cols n (S i) A -> i < n -> c < n ->
  A i c = fid i c.
Proof.
  intros n i A c Hz Hp Hu Hi Hc. destruct (lt_eq_lt_dec c i) as [[H| ->]|H].
  - rewrite Hz by lia. unfold fid. destruct (Nat.eqb_spec i c); [lia|reflexivity].
  - rewrite Hp by lia. unfold fid. rewrite Nat.eqb_refl. reflexivity.
  - apply Hu; lia.
Qed.

Lemma radd_unit : forall n i j A r c, zb n n A -> piv n A -> unit_cols n (S i) A ->
  j < i -> i < n -> r < n -> c < n -> A j i = true ->
  radd j i A r c = if (Nat.eqb r j && Nat.eqb c i)%bool then false else A r c.
Proof.
  intros n i j A r c Hz Hp Hu Hj Hi Hr Hc Hji. unfold radd.
  destruct (Nat.eqb_spec r j) as [->|]; auto. simpl.
  rewrite (unit_row n i A c) by auto. unfold fid.
  rewrite Nat.eqb_sym.
  destruct (Nat.eqb_spec c i) as [->|]; [rewrite Hji; reflexivity|apply xorb_false_r].
Qed.

Lemma back_step : forall n i j A, zb n n A -> piv n A -> unit_cols n (S i) A ->
  j < i -> i < n -> A j i = true -> col_above i (S j) A ->
  zb n n (radd j i A) /\ piv n (radd j i A) /\ unit_cols n (S i) (radd j i A) /\
  col_above i j (radd j i A).
Proof.
  intros n i j A Hz Hp Hu Hj Hi Hji Hc. repeat split.
  - intros r k H1 H2 H3. rewrite (radd_unit n) by (auto; lia).
    destruct (_ && _)%bool; auto.
  - intros k Hk. rewrite (radd_unit n) by (auto; lia).
    destruct (Nat.eqb_spec k j) as [->|]; simpl; auto.
    destruct (Nat.eqb_spec j i); [lia|auto].
  - intros r c H1 H2 H3. rewrite (radd_unit n) by (auto; lia).
    destruct (Nat.eqb_spec c i); [lia|]. rewrite andb_false_r. apply Hu; lia.
  - intros r H1 H2. rewrite (radd_unit n) by (auto; lia).
    rewrite Nat.eqb_refl, andb_true_r. destruct (Nat.eqb_spec r j); auto.
    apply Hc; lia.
Qed.

Lemma unit_cols_next : forall n i A, i < n -> piv n A -> zb n n A -> unit_cols n (S i) A ->
  col_above i 0 A -> unit_cols n i A.
Proof.
  intros n i A Hi Hp Hz Hu Hc r c H1 H2 H3.
  destruct (Nat.eq_dec c i) as [->|]; [|apply Hu; lia].
  unfold fid. destruct (Nat.eqb_spec r i) as [->|]; [apply Hp; auto|].
  destruct (Nat.lt_ge_cases r i).
  - apply Hc; lia.
  - apply Hz; lia.
Qed.

(** pure back substitution: unit upper triangular matrices are invertible *)
Lemma back_col : forall n i B, i < n -> zb n n B -> piv n B -> unit_cols n (S i) B ->
  forall d, d <= i -> exists W, invertible n W /\ zb n n (fmul n W B) /\ piv n (fmul n W B) /\ unit_cols n (S i) (fmul n W B) /\ col_above i (i - d) (fmul n W B).
Proof.
  intros n i B Hi Hz Hp Hu d. induction d as [|d IH]; intros Hd.
  - exists fid.
    assert (E : feq n B (fmul n fid B)) by (symmetry; apply fmul_id_l).
    split; [exists fid; apply inverse_of_fid|].
    split; [apply (zb_ext n n B); auto|]. split; [apply (piv_ext n n B); auto|].
    split; [apply (unit_cols_ext n _ B); auto|]. intros r H1 H2; lia.
  - destruct IH as (W & HW & H1 & H2 & H3 & H4); [lia|].
    set (j := i - S d). replace (i - d) with (S j) in H4 by (unfold j; lia).
    destruct (fmul n W B j i) eqn:E.
    + exists (radd j i W).
      destruct (back_step n i j (fmul n W B)) as (G1 & G2 & G3 & G4); auto; [unfold j; lia|].
      pose proof (radd_fmul n j i W B) as R.
      split; [apply radd_invertible; auto; unfold j; lia|].
      split; [apply (zb_ext n n _ _ (le_n n) R G1)|].
      split; [apply (piv_ext n n _ _ (le_n n) R G2)|].
      split; [apply (unit_cols_ext n _ _ _ R G3)|].
      apply (col_above_ext n i j _ _ Hi R G4).
    + exists W. repeat split; auto. intros r Hr1 Hr2.
      destruct (Nat.eq_dec r j) as [->|]; auto. apply H4; lia.
Qed.

Lemma back_all : forall n B, zb n n B -> piv n B ->
  forall d, d <= n -> exists W, invertible n W /\ zb n n (fmul n W B) /\ piv n (fmul n W B) /\ unit_cols n (n - d) (fmul n W B).
Proof.
  intros n B Hz Hp d. induction d as [|d IH]; intros Hd.
  - exists fid.
    assert (E : feq n B (fmul n fid B)) by (symmetry; apply fmul_id_l).
    split; [exists fid; apply inverse_of_fid|].
    split; [apply (zb_ext n n B); auto|]. split; [apply (piv_ext n n B); auto|].
    intros r c H1 H2 H3; lia.
  - destruct IH as (W & HW & H1 & H2 & H3); [lia|].
    set (i := n - S d). replace (n - d) with (S i) in H3 by (unfold i; lia).
    destruct (back_col n i (fmul n W B)) with (d := i) as (W2 & HW2 & G1 & G2 & G3 & G4);
      auto; [unfold i; lia|].
    rewrite Nat.sub_diag in G4.
    exists (fmul n W2 W).
    pose proof (feq_sym _ _ _ (fmul_assoc n W2 W B)) as R.
    split; [apply invertible_mul; auto|].
    split; [apply (zb_ext n n _ _ (le_n n) R G1)|].
    split; [apply (piv_ext n n _ _ (le_n n) R G2)|].
    apply (unit_cols_ext n _ _ _ R). apply unit_cols_next; auto. unfold i; lia.
Qed.

(** a matrix with an invertible left inverse is invertible *)
Lemma invertible_of_left : forall n A W, invertible n W -> feq n (fmul n W A) fid ->
  inverse_of n A W.
Proof.
  intros n A W HW H. apply inverse_of_sym.
  apply right_inverse_of_invertible; auto.
Qed.

Lemma unit_cols_0 : forall n A, unit_cols n 0 A -> feq n A fid.
Proof. intros n A H i j Hi Hj. apply H; lia. Qed.

Lemma unitri_invertible : forall n A V B, rowtr n A V B -> zb n n B -> piv n B ->
  invertible n A.
Proof.
  intros n A V B [HV HB] Hz Hp.
  destruct (back_all n B Hz Hp n (le_n n)) as (W & HW & _ & _ & HU).
  rewrite Nat.sub_diag in HU. apply unit_cols_0 in HU.
  exists (fmul n W V). apply invertible_of_left.
  - apply invertible_mul; auto.
  - rewrite fmul_assoc, <- HB. exact HU.
Qed.

(** ** Loop bookkeeping for blocks *)

Lemma block_col : forall w b i, wb w * b <= i -> i < wb w * (b + 1) -> b < nw w ->
  i < dim w /\ i / wb w = b.
Proof.
  intros w b i H1 H2 H3. split.
  - rewrite dim_eq. nia.
  - replace i with (wb w * b + (i - wb w * b)) by lia. apply div_block. lia.
Qed.

Lemma left_of_block : forall w b i c, wb w * b <= i -> c / wb w < b -> c < i.
Proof.
  intros w b i c H1 H2.
  assert (c < wb w * b); [|lia].
  pose proof (wb_pos w).
  rewrite (Nat.div_mod c (wb w)) by lia.
  pose proof (mod_lt_wb w c). nia.
Qed.

(** row i is zero left of its block *)
Lemma row_zero_left : forall w m b i, zb (dim w) i (mbit w m) ->
  wb w * b <= i -> i < dim w ->
  forall r, i <= r -> r < dim w ->
  forall c, c < dim w -> (c / wb w < b \/ nw w <= c / wb w) -> mbit w m r c = false.
Proof.
  intros w m b i Hz Hb Hi r Hr1 Hr2 c Hc [H|H].
  - pose proof (left_of_block w b i c Hb H). apply Hz; lia.
  - pose proof (div_lt_nw w c Hc). lia.
Qed.

(** ** isinvert *)

Lemma wp_elim_below : forall w A b i m V (Q : mat -> Prop),
  wb w * b <= i -> i < wb w * (b + 1) -> b < nw w ->
  wfM w m -> rowtr (dim w) A V (mbit w m) ->
  zb (dim w) i (mbit w m) -> piv i (mbit w m) -> mbit w m i i = true ->
  (forall m' V', wfM w m' -> rowtr (dim w) A V' (mbit w m') ->
     zb (dim w) (S i) (mbit w m') -> piv (S i) (mbit w m') -> Q m') ->
  wp (elim_below w b i m) Q.
Proof.
  intros w A b i m V Q H1 H2 Hb Hm HR Hz Hp Hi HQ.
  destruct (block_col w b i H1 H2 Hb) as [Hin Hdiv].
  unfold elim_below.
  apply wp_for_up with (I := fun j m => wfM w m /\
    (exists V, rowtr (dim w) A V (mbit w m)) /\
    zb (dim w) i (mbit w m) /\ piv i (mbit w m) /\ mbit w m i i = true /\
    col_done i j (mbit w m)).
  - lia.
  - repeat split; eauto; try apply Hm. intros r Hr1 Hr2; lia.
  - clear m V Hm HR Hz Hp Hi.
    intros j m Hj1 Hj2 (Hm & (V & HR) & Hz & Hp & Hi & Hc).
    apply wp_bind. apply wp_bit_test_col; auto using wfM_shape.
    destruct (mbit w m j i) eqn:E.
    + apply wp_xor_row_bits with (w := w); auto; try lia.
      { intros c Hc1 Hc2. apply (row_zero_left w m b i); auto. }
      intros m' Hm' HB. split; [exact Hm'|].
      split; [exists (radd j i V); apply (rowtr_ext (dim w) A (radd j i V) _ (radd j i (mbit w m)));
              [reflexivity|symmetry; exact HB|apply rowtr_radd; auto; lia]|].
      split; [apply (zb_ext _ _ (radd j i (mbit w m)));
              [lia|symmetry; exact HB|apply zb_radd; auto; lia]|].
      split; [apply (piv_ext (dim w) _ (radd j i (mbit w m)));
              [lia|symmetry; exact HB|apply (piv_radd (dim w)); auto; lia]|].
      split.
      * rewrite HB by auto. unfold radd. destruct (Nat.eqb_spec i j); [lia|auto].
      * apply (col_done_ext (dim w) _ _ (radd j i (mbit w m)));
          [lia|lia|symmetry; exact HB|apply col_done_radd; auto; lia].
    + split; [exact Hm|]. split; [eauto|]. repeat split; auto.
      apply col_done_skip; auto.
  - intros m' (Hm' & (V' & HR') & Hz' & Hp' & Hi' & Hc').
    apply (HQ m' V'); auto using zb_next, piv_next.
Qed.

(** the last row of a unit upper triangular matrix, as stored *)
Lemma last_word : forall w m, wfM w m -> zb (dim w) (dim w) (mbit w m) ->
  piv (dim w) (mbit w m) -> word m (dim w - 1) (nw w - 1) = 1%N.
Proof.
  intros w m Hm Hz Hp. apply mat_of_iff in Hm. destruct Hm as [Hs Hb].
  pose proof (wb_pos w) as P1. pose proof (nw_pos w) as P2. pose proof (dim_eq w) as P3.
  pose proof (dim_pos w) as P4.
  apply wbits_ext with (w := w); auto.
  { apply (pow2_bound 0). lia. }
  intros c Hc.
  assert (HB : wb w * (nw w - 1) + c < dim w) by (apply block_lt_dim; lia).
  assert (EQ : N.testbit (word m (dim w - 1) (nw w - 1)) (N.of_nat (wb w - 1 - c))
               = mbit w m (dim w - 1) (wb w * (nw w - 1) + c)).
  { unfold mbit. rewrite div_block, mod_block by auto. reflexivity. }
  rewrite EQ.
  destruct (Nat.eq_dec c (wb w - 1)) as [->|Hne].
  - replace (wb w * (nw w - 1) + (wb w - 1)) with (dim w - 1) by nia.
    rewrite Hp by lia. replace (wb w - 1 - (wb w - 1)) with 0 by lia. reflexivity.
  - rewrite Hz by nia. symmetry.
    apply (testbit_high 1 1). { reflexivity. } lia.
Qed.

Lemma isinvert_wp : forall w m, wfM w m ->
  wp (isinvert w m) (fun r =>
    (r = 1%N /\ invertible (dim w) (mbit w m)) \/
    (r = 0%N /\ ~ invertible (dim w) (mbit w m))).
Proof.
  intros w m0 Hm0. unfold isinvert. set (A := mbit w m0). set (n := dim w).
  pose (I := fun i m => wfM w m /\ (exists V, rowtr n A V (mbit w m)) /\
                        zb n i (mbit w m) /\ piv i (mbit w m)).
  apply wp_bind.
  apply wp_blocks_ret with (I := I).
  - split; [exact Hm0|]. split; [exists fid; apply rowtr_id|].
    split; [intros r k H; lia|intros k H; lia].
  - intros b i m Hb Hi1 Hi2 Hin (Hm & (V & HR) & Hz & Hp).
    apply wp_bind. apply wp_bit_test_col; auto using wfM_shape.
    destruct (mbit w m i i) eqn:E.
    + apply wp_bind. apply wp_elim_below with (A := A) (V := V); auto.
      intros m' V' H1 H2 H3 H4. apply wp_ok. split; eauto.
    + apply wp_bind.
      apply wp_find_up with (P := fun j => mbit w m j i); [lia| | |].
      * intros j Hj1 Hj2. apply wp_bit_test_col; auto using wfM_shape.
      * intros j Hj1 Hj2 HPj _. apply wp_bind.
        apply wp_swap_row_bits with (w := w); auto; try lia.
        { intros c Hc1 Hc2. rewrite !(row_zero_left w m b i); auto; lia. }
        intros m1 Hm1 HB. apply wp_bind.
        apply wp_elim_below with (A := A) (V := rswap i j V); auto.
        -- apply (rowtr_ext n A (rswap i j V) _ (rswap i j (mbit w m)));
             [reflexivity|symmetry; exact HB|apply rowtr_rswap; auto; lia].
        -- apply (zb_ext _ _ (rswap i j (mbit w m)));
             [lia|symmetry; exact HB|apply zb_rswap; auto; lia].
        -- apply (piv_ext n _ (rswap i j (mbit w m)));
             [unfold n; lia|symmetry; exact HB|apply piv_rswap; auto; lia].
        -- rewrite HB by auto. unfold rswap. rewrite Nat.eqb_refl. exact HPj.
        -- intros m' V' H1 H2 H3 H4. apply wp_ok. split; eauto.
      * intros HN. apply wp_ok. cbv beta iota. right. split; auto.
        apply (no_pivot_singular n i A V (mbit w m)); auto.
        intros r Hr1 Hr2. destruct (Nat.eq_dec r i) as [->|]; auto. apply HN; lia.
  - intros m (Hm & (V & HR) & Hz & Hp). cbv beta iota.
    apply wp_bind. apply wp_mget with (w := w); auto using wfM_shape.
    { pose proof (dim_pos w); lia. } { pose proof (nw_pos w); lia. }
    apply wp_bind. apply wp_idt. { pose proof (wb_pos w); lia. }
    apply wp_ok. unfold n. rewrite (last_word w) by auto.
    replace (wb w - 1 - (wb w - 1)) with 0 by lia. left. split; [reflexivity|].
    apply (unitri_invertible n A V (mbit w m)); auto.
Qed.

(** ** invs *)

Lemma wp_elim_below2 : forall w A b i m v (Q : mat * mat -> Prop),
  wb w * b <= i -> i < wb w * (b + 1) -> b < nw w ->
  wfM w m -> wfM w v -> rowtr (dim w) A (mbit w v) (mbit w m) ->
  zb (dim w) i (mbit w m) ->
  (mbit w m i i = true \/ forall r, i < r -> r < dim w -> mbit w m r i = false) ->
  (forall m' v', wfM w m' -> wfM w v' -> rowtr (dim w) A (mbit w v') (mbit w m') ->
     zb (dim w) (S i) (mbit w m') ->
     (piv i (mbit w m) -> piv i (mbit w m')) ->
     mbit w m' i i = mbit w m i i -> Q (m', v')) ->
  wp (elim_below2 w b i (m, v)) Q.
Proof.
  intros w A b i m0 v0 Q H1 H2 Hb Hm Hv HR Hz Hi HQ.
  destruct (block_col w b i H1 H2 Hb) as [Hin Hdiv].
  unfold elim_below2.
  apply wp_for_up with (I := fun j mv => let (m, v) := mv : mat * mat in
    wfM w m /\ wfM w v /\ rowtr (dim w) A (mbit w v) (mbit w m) /\
    zb (dim w) i (mbit w m) /\ (piv i (mbit w m0) -> piv i (mbit w m)) /\
    mbit w m i i = mbit w m0 i i /\
    (mbit w m0 i i = true \/ forall r, i < r -> r < dim w -> mbit w m r i = false) /\
    col_done i j (mbit w m)).
  - lia.
  - split; [exact Hm|]. split; [exact Hv|]. split; [exact HR|]. split; [exact Hz|].
    split; [auto|]. split; [auto|]. split; [auto|]. intros r Hr1 Hr2; lia.
  - clear Hm Hv HR Hz. intros j [m v] Hj1 Hj2 (Hm & Hv & HR & Hz & Hp & Hii & Hc0 & Hc).
    apply wp_bind. apply wp_bit_test_col; auto using wfM_shape.
    destruct (mbit w m j i) eqn:E.
    + apply wp_bind. apply wp_xor_row_bits with (w := w); auto; try lia.
      { intros c Hc1 Hc2. apply (row_zero_left w m b i); auto. }
      intros m' Hm' HB. apply wp_bind.
      apply wp_xor_row_bits with (w := w); auto; try lia.
      { intros c Hc1 Hc2. pose proof (div_lt_nw w c Hc1). lia. }
      intros v' Hv' HB'. apply wp_ok.
      assert (Pi : mbit w m0 i i = true).
      { destruct Hc0 as [|Hc0]; auto. rewrite Hc0 in E by lia. discriminate. }
      split; [exact Hm'|]. split; [exact Hv'|].
      split; [apply (rowtr_ext (dim w) A (radd j i (mbit w v)) _ (radd j i (mbit w m)));
              [symmetry; exact HB'|symmetry; exact HB|apply rowtr_radd; auto; lia]|].
      split; [apply (zb_ext _ _ (radd j i (mbit w m)));
              [lia|symmetry; exact HB|apply zb_radd; auto; lia]|].
      split; [intros Hp0; apply (piv_ext (dim w) _ (radd j i (mbit w m)));
              [lia|symmetry; exact HB|apply (piv_radd (dim w)); auto; lia]|].
      split; [rewrite HB by auto; unfold radd; destruct (Nat.eqb_spec i j); [lia|auto]|].
      split; [left; auto|].
      apply (col_done_ext (dim w) _ _ (radd j i (mbit w m)));
          [lia|lia|symmetry; exact HB|apply col_done_radd; auto; try lia; congruence].
    + split; [exact Hm|]. split; [exact Hv|]. repeat (split; auto).
      apply col_done_skip; auto.
  - intros [m v] (Gm & Gv & GR & Gz & Gp & Gii & _ & Gc).
    apply HQ; auto using zb_next.
Qed.

(** back substitution without any condition on the first matrix *)
Lemma wp_xor_row_any : forall w m j i lo hi (Q : mat -> Prop),
  wfM w m -> j < dim w -> i < dim w -> lo <= hi -> hi <= nw w ->
  (forall m', wfM w m' -> Q m') -> wp (xor_row m j i lo hi) Q.
Proof.
  intros w m j i lo hi Q Hm Hj Hi H1 H2 HQ. apply mat_of_iff in Hm. destruct Hm as [Hs Hb].
  apply wp_xor_row with (w := w); auto. intros m' Hs' Hw. apply HQ.
  apply mat_of_iff. split; auto. intros r k. rewrite Hw.
  destruct (_ && _)%bool; auto. apply lxor_bound; auto.
Qed.

Lemma wp_xor_row_full : forall w m j i (Q : mat -> Prop),
  wfM w m -> j < dim w -> i < dim w ->
  (forall m', wfM w m' -> feq (dim w) (mbit w m') (radd j i (mbit w m)) -> Q m') ->
  wp (xor_row m j i 0 (nw w)) Q.
Proof.
  intros w m j i Q Hm Hj Hi HQ. apply wp_xor_row_bits with (w := w); auto; try lia.
  intros c Hc1 Hc2. pose proof (div_lt_nw w c Hc1). lia.
Qed.
Lemma wp_swap_row_full : forall w m i j (Q : mat -> Prop),
  wfM w m -> i < dim w -> j < dim w ->
  (forall m', wfM w m' -> feq (dim w) (mbit w m') (rswap i j (mbit w m)) -> Q m') ->
  wp (swap_row m i j 0 (nw w)) Q.
Proof.
  intros w m j i Q Hm Hj Hi HQ. apply wp_swap_row_bits with (w := w); auto; try lia.
  intros c Hc1 Hc2. pose proof (div_lt_nw w c Hc1). lia.
Qed.

Lemma wp_back_subst_any : forall w m v (Q : mat * mat -> Prop),
  wfM w m -> wfM w v -> invertible (dim w) (mbit w v) ->
  (forall m' v', wfM w m' -> wfM w v' -> invertible (dim w) (mbit w v') -> Q (m', v')) ->
  wp (back_subst w (m, v)) Q.
Proof.
  intros w m0 v0 Q Hm Hv HI HQ. unfold back_subst.
  pose (I := fun mv : mat * mat => let (m, v) := mv in
         wfM w m /\ wfM w v /\ invertible (dim w) (mbit w v)).
  apply wp_blocks_down with (I := fun _ => I).
  - split; auto.
  - intros b i x Hb H1 H2 Hi HIx.
    apply wp_for_down with (I := fun _ => I); auto; [lia|].
    clear x HIx. intros j [m v] _ Hj (Gm & Gv & GI).
    apply wp_bind. apply wp_bit_test_col; auto using wfM_shape; [lia|].
    destruct (mbit w m j i); [|split; auto].
    apply wp_bind. apply wp_xor_row_any with (w := w); auto; try lia.
    intros m' Hm'. apply wp_bind. apply wp_xor_row_full; auto; try lia.
    intros v' Hv' HB. apply wp_ok. split; auto. split; auto.
    rewrite HB. apply radd_invertible; auto; lia.
  - intros [m v] (H1 & H2 & H3). apply HQ; auto.
Qed.

Lemma wp_back_subst : forall w A m v (Q : mat * mat -> Prop),
  wfM w m -> wfM w v -> rowtr (dim w) A (mbit w v) (mbit w m) ->
  zb (dim w) (dim w) (mbit w m) -> piv (dim w) (mbit w m) ->
  (forall m' v', wfM w m' -> wfM w v' -> rowtr (dim w) A (mbit w v') (mbit w m') ->
     feq (dim w) (mbit w m') fid -> Q (m', v')) ->
  wp (back_subst w (m, v)) Q.
Proof.
  intros w A m0 v0 Q Hm Hv HR Hz Hp HQ. unfold back_subst.
  pose (J := fun i (mv : mat * mat) => let (m, v) := mv in
         wfM w m /\ wfM w v /\ rowtr (dim w) A (mbit w v) (mbit w m) /\
         zb (dim w) (dim w) (mbit w m) /\ piv (dim w) (mbit w m) /\
         unit_cols (dim w) i (mbit w m)).
  apply wp_blocks_down with (I := J).
  - repeat split; auto; try apply Hm; try apply Hv; try apply HR. intros r c H1 H2 H3; lia.
  - intros b i x Hb H1 H2 Hi HIx.
    apply wp_for_down with (I := fun j mv => J (S i) mv /\ col_above i j (mbit w (fst mv))).
    + lia.
    + split; auto. intros r Hr1 Hr2; lia.
    + clear x HIx. intros j [m v] _ Hj [(Gm & Gv & GR & Gz & Gp & Gu) Gc]. cbn [fst] in Gc.
      apply wp_bind. apply wp_bit_test_col; auto using wfM_shape; [lia|].
      destruct (mbit w m j i) eqn:E.
      * apply wp_bind. apply wp_xor_row_bits with (w := w); auto; try lia.
        { intros c Hc1 Hc2. rewrite (unit_row (dim w)) by auto. unfold fid.
          destruct (Nat.eqb_spec i c) as [<-|]; auto.
          destruct (block_col w b i H1 H2 Hb) as [_ Hd]. lia. }
        intros m' Hm' HB. apply wp_bind. apply wp_xor_row_full; auto; try lia.
        intros v' Hv' HB'. apply wp_ok.
        destruct (back_step (dim w) i j (mbit w m)) as (E1 & E2 & E3 & E4); auto.
        symmetry in HB, HB'. split.
        -- split; [exact Hm'|]. split; [exact Hv'|].
           split; [apply (rowtr_ext _ _ _ _ _ _ HB' HB); apply rowtr_radd; auto; lia|].
           split; [apply (zb_ext _ _ _ _ (le_n _) HB E1)|].
           split; [apply (piv_ext _ _ _ _ (le_n _) HB E2)|].
           apply (unit_cols_ext _ _ _ _ HB E3).
        -- apply (col_above_ext _ _ _ _ _ Hi HB E4).
      * split; [repeat (split; auto)|]. intros r Hr1 Hr2. cbn [fst].
        destruct (Nat.eq_dec r j) as [->|]; auto. apply Gc; lia.
    + intros [m v] [(Gm & Gv & GR & Gz & Gp & Gu) Gc]. repeat (split; auto).
      apply unit_cols_next; auto.
  - intros [m v] (Gm & Gv & GR & Gz & Gp & Gu). apply HQ; auto. apply unit_cols_0; auto.
Qed.

Lemma invs_wp : forall w m v, wfM w m -> shapeM w v ->
  wp (invs w m v) (fun r => wfM w r /\ invertible (dim w) (mbit w r) /\
    (invertible (dim w) (mbit w m) -> inverse_of (dim w) (mbit w m) (mbit w r))).
Proof.
  intros w m0 v0 Hm0 Hv0. unfold invs. set (A := mbit w m0). set (n := dim w).
  apply wp_bind. rewrite identityM_ok by auto. apply wp_ok.
  set (id := mk w (id_word w)).
  pose (I := fun i (mv : mat * mat) => let (m, v) := mv in
     wfM w m /\ wfM w v /\ rowtr n A (mbit w v) (mbit w m) /\
     zb n i (mbit w m) /\ (invertible n A -> piv i (mbit w m))).
  apply wp_bind. apply wp_blocks_up with (I := I).
  - split; [exact Hm0|]. split; [apply wf_id|].
    split; [apply (rowtr_ext n A fid _ A);
            [symmetry; apply mbit_id|reflexivity|apply rowtr_id]|].
    split; [intros r k H; lia|intros _ k H; lia].
  - intros b i [m v] Hb Hi1 Hi2 Hin (Hm & Hv & HR & Hz & Hp).
    apply wp_bind. apply wp_bit_test_col; auto using wfM_shape.
    destruct (mbit w m i i) eqn:E.
    + apply wp_elim_below2 with (A := A); auto.
      intros m' v' G1 G2 G3 G4 G5 G6. repeat (split; auto).
      intros HI. apply piv_next; auto. rewrite G6; auto.
    + apply wp_bind.
      apply wp_find_up with (P := fun j => mbit w m j i); [lia| | |].
      * intros j Hj1 Hj2. apply wp_bit_test_col; auto using wfM_shape.
      * intros j Hj1 Hj2 HPj _. apply wp_bind.
        apply wp_bind. apply wp_swap_row_bits with (w := w); auto; try lia.
        { intros c Hc1 Hc2. rewrite !(row_zero_left w m b i); auto; lia. }
        intros m1 Hm1 HB. apply wp_bind.
        apply wp_swap_row_full; auto. intros v1 Hv1 HB1. apply wp_ok.
        symmetry in HB, HB1.
        apply wp_elim_below2 with (A := A); auto.
        -- apply (rowtr_ext _ _ _ _ _ _ HB1 HB). apply rowtr_rswap; auto; lia.
        -- apply (zb_ext _ _ _ _ (Nat.lt_le_incl _ _ Hin) HB). apply zb_rswap; auto; lia.
        -- left. rewrite <- HB by auto. unfold rswap. rewrite Nat.eqb_refl. exact HPj.
        -- intros m' v' G1 G2 G3 G4 G5 G6. repeat (split; auto).
           intros HI. apply piv_next.
           ++ apply G5. apply (piv_ext n _ _ _ (Nat.lt_le_incl _ _ Hin) HB).
              apply piv_rswap; auto; lia.
           ++ rewrite G6, <- HB by auto. unfold rswap. rewrite Nat.eqb_refl. exact HPj.
      * intros HN. apply wp_bind. apply wp_ok.
        apply wp_elim_below2 with (A := A); auto.
        { right. intros r Hr1 Hr2. apply HN; lia. }
        intros m' v' G1 G2 G3 G4 G5 G6. repeat (split; auto).
        intros HI. exfalso.
        apply (no_pivot_singular n i A (mbit w v) (mbit w m)); auto.
        intros r Hr1 Hr2. destruct (Nat.eq_dec r i) as [->|]; auto. apply HN; lia.
  - intros [m v] (Hm & Hv & HR & Hz & Hp).
    apply wp_bind.
    pose proof (wp_back_subst_any w m v (fun mv => wfM w (snd mv) /\ invertible n (mbit w (snd mv)))
                  Hm Hv (proj1 HR) ltac:(intros; split; auto)) as Hany.
    assert (Hfull : wp (back_subst w (m, v)) (fun mv =>
              invertible n A -> inverse_of n A (mbit w (snd mv)))).
    { destruct (wp_exists _ _ _ Hany) as [mv [Emv _]]. rewrite Emv. simpl. intros HI.
      pose proof (wp_back_subst w A m v (fun mv => inverse_of n A (mbit w (snd mv)))
                    Hm Hv HR Hz (Hp HI)) as HB.
      refine (wp_inv _ _ (fun mv => inverse_of n A (mbit w (snd mv))) mv (HB _) Emv).
      clear mv Emv. intros m' v' _ _ [GV GR] Gid. cbn [snd]. apply invertible_of_left; auto.
      apply (feq_trans _ _ (mbit w m')); [symmetry; exact GR|exact Gid]. }
    eapply wp_mono; [apply (wp_conj _ _ _ _ Hany Hfull)|].
    intros [m' v'] [[H1 H2] H3]. apply wp_ok. auto.
Qed.
