(** A square matrix over GF(2) is invertible or has a non-zero null vector; one-sided
    inverses are inverses; factors of invertible matrices are invertible. *)
From Coq Require Import Arith List Bool Lia Setoid Morphisms.
From Verif Require Import Base Spec LinAlg Elim.

Definition nullvec (n : nat) (A : fmat) : Prop :=
  exists x : fvec, (exists k, k < n /\ x k = true) /\ veq n (fapp n A x) (fun _ => false).

Lemma find_row : forall (f : nat -> bool) i n,
  (exists r, i <= r /\ r < n /\ f r = true) \/ (forall r, i <= r -> r < n -> f r = false).
Proof.
  intros f i n. induction n as [|n IH].
  - right. intros; lia.
  - destruct IH as [(r & H1 & H2 & H3)|IH]; [left; exists r; auto|].
    destruct (f n) eqn:E; destruct (Nat.le_gt_cases i n).
    + left. exists n. auto.
    + right. intros; lia.
    + right. intros r H1 H2. destruct (Nat.eq_dec r n) as [->|]; auto. apply IH; lia.
    + right. intros; lia.
Qed.

Lemma clear_column : forall n A i, i < n -> forall V B, rowtr n A V B -> zb n i B -> piv i B ->
  B i i = true -> forall j, j <= n ->
  exists V' B', rowtr n A V' B' /\ zb n i B' /\ piv i B' /\ B' i i = true /\ col_done i j B'.
Proof.
  intros n A i Hi V B HR Hz Hp Hii. induction j as [|j IH]; intros Hj.
  - exists V, B. repeat split; try apply HR; auto. intros r H1 H2. lia.
  - destruct IH as (V' & B' & R & Z & P & I & C); [lia|].
    destruct (Nat.le_gt_cases j i) as [Hle|Hgt].
    + exists V', B'. repeat split; try apply R; auto. intros r H1 H2. lia.
    + destruct (B' j i) eqn:E.
      * exists (radd j i V'), (radd j i B').
        split; [apply rowtr_radd; auto; lia|]. split; [apply zb_radd; auto|].
        split; [apply (piv_radd n); auto|]. split.
        { unfold radd. destruct (Nat.eqb_spec i j); [lia|exact I]. }
        apply col_done_radd; auto.
      * exists V', B'. repeat split; try apply R; auto. apply col_done_skip; auto.
Qed.

Lemma null_back : forall n A V B, rowtr n A V B -> nullvec n B -> nullvec n A.
Proof.
  intros n A V B [[W [_ HW]] HB] (x & Hx & H0). exists x. split; auto.
  assert (E : veq n (fapp n A x) (fapp n W (fapp n B x))).
  { rewrite HB, fmul_fapp, <- fmul_fapp, HW, fapp_id. reflexivity. }
  rewrite E, H0. intros i Hi. unfold fapp. apply xsum_false. intros. apply andb_false_r.
Qed.

Lemma echelon : forall n A i, i <= n ->
  nullvec n A \/ exists V B, rowtr n A V B /\ zb n i B /\ piv i B.
Proof.
  intros n A. induction i as [|i IH]; intros Hi.
  - right. exists fid, A. split; [apply rowtr_id|]. split.
    + intros r k. intros. lia.
    + intros k Hk. lia.
  - destruct IH as [IH|(V & B & R & Z & P)]; [lia|auto|].
    destruct (find_row (fun r => B r i) i n) as [(r & H1 & H2 & H3)|H].
    + right. assert (R' := rowtr_rswap n A V B r i H2 ltac:(lia) R).
      destruct (clear_column n A i ltac:(lia) _ _ R') with (j := n) as (V' & B' & R2 & Z2 & P2 & I2 & C2).
      * apply zb_rswap; auto.
      * apply piv_rswap; auto.
      * unfold rswap. rewrite Nat.eqb_refl. exact H3.
      * lia.
      * exists V', B'. split; auto. split; [apply zb_next; auto|apply piv_next; auto].
    + left. apply (null_back n A V B R). apply (missing_pivot_null n i B); auto.
Qed.

Lemma invertible_or_null : forall n A, invertible n A \/ nullvec n A.
Proof.
  intros n A. destruct (echelon n A n (le_n n)) as [H|(V & B & R & Z & P)]; auto.
  left. apply (unitri_invertible n A V B); auto.
Qed.

Lemma invertible_not_null : forall n A, invertible n A -> ~ nullvec n A.
Proof.
  intros n A [B [_ HB]] (x & Hx & H0). exact (null_no_left_inverse n A x Hx H0 B HB).
Qed.

Lemma left_inverse : forall n A B, feq n (fmul n B A) fid -> inverse_of n A B.
Proof.
  intros n A B H. apply left_inverse_of_invertible; auto.
  destruct (invertible_or_null n A) as [HI|(x & Hx & H0)]; auto.
  exfalso. exact (null_no_left_inverse n A x Hx H0 B H).
Qed.
Lemma right_inverse : forall n A B, feq n (fmul n A B) fid -> inverse_of n A B.
Proof. intros n A B H. apply inverse_of_sym, left_inverse, H. Qed.

Lemma invertible_factor_r : forall n A B, invertible n (fmul n A B) -> invertible n B.
Proof.
  intros n A B [C [_ HC]]. exists (fmul n C A). apply left_inverse.
  rewrite fmul_assoc. exact HC.
Qed.
Lemma invertible_factor_l : forall n A B, invertible n (fmul n A B) -> invertible n A.
Proof.
  intros n A B [C [HC _]]. exists (fmul n B C). apply right_inverse.
  rewrite <- fmul_assoc. exact HC.
Qed.
