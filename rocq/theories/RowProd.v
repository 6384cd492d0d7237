(** Checks on concrete matrices by computation, row by row: products and null vectors. *)
From Coq Require Import Arith NArith List Bool Lia.
From Verif Require Import Base Tables Model Spec LinAlg Mem Cons Check.
Import ListNotations.

(** ** Product of two stored matrices, row by row *)

(** a row of one or two elements as one number: column j is bit dim - 1 - j *)
Definition rown (r : list N) : N :=
  match r with [x] => x | [h; l] => (h * 2 ^ 64 + l)%N | _ => 0%N end.

Lemma testbit_pair : forall h l k, (l < 2 ^ 64)%N ->
  N.testbit (h * 2 ^ 64 + l) k = if (k <? 64)%N then N.testbit l k else N.testbit h (k - 64).
Proof.
  intros h l k Hl.
  assert (E : (h * 2 ^ 64 + l)%N = N.lor (N.shiftl h 64) l).
  { rewrite N.shiftl_mul_pow2. rewrite <- N.lxor_lor.
    - rewrite <- N.add_nocarry_lxor; auto. rewrite <- N.shiftl_mul_pow2. apply N.bits_inj_0.
      intros n. rewrite N.land_spec. destruct (N.ltb_spec n 64).
      + rewrite N.shiftl_spec_low by auto. reflexivity.
      + rewrite <- (N.mod_small l (2 ^ 64)) by auto.
        rewrite N.mod_pow2_bits_high by auto. apply andb_false_r.
    - rewrite <- N.shiftl_mul_pow2. apply N.bits_inj_0.
      intros n. rewrite N.land_spec. destruct (N.ltb_spec n 64).
      + rewrite N.shiftl_spec_low by auto. reflexivity.
      + rewrite <- (N.mod_small l (2 ^ 64)) by auto.
        rewrite N.mod_pow2_bits_high by auto. apply andb_false_r. }
  rewrite E, N.lor_spec. destruct (N.ltb_spec k 64).
  - rewrite N.shiftl_spec_low by auto. reflexivity.
  - rewrite N.shiftl_spec_high' by auto. rewrite <- (N.mod_small l (2 ^ 64)) by auto.
    rewrite N.mod_pow2_bits_high by auto. apply orb_false_r.
Qed.

Definition small (w : width) : Prop := nw w <= 2.

Lemma mbit_rown : forall w m i j, small w -> wfM w m -> i < dim w -> j < dim w ->
  mbit w m i j = N.testbit (rown (nth i m [])) (N.of_nat (dim w - 1 - j)).
Proof.
  intros w m i j Hs [Hl Hm] Hi Hj. unfold mbit, word.
  assert (Hr : vec_of w (wb w) (nth i m [])).
  { rewrite Forall_forall in Hm. apply Hm. apply nth_In. lia. }
  destruct Hr as [Hn He]. unfold small in Hs.
  destruct (nth i m []) as [|a [|b [|? ?]]]; destruct w; simpl in Hn; try lia;
    try (simpl in Hs; lia); cbn [wb dim] in *;
    try (rewrite Nat.div_small, Nat.mod_small by lia; reflexivity).
  unfold rown. inversion He; subst. inversion H2; subst.
  rewrite testbit_pair by (cbn [N.of_nat] in *; assumption).
  destruct (N.ltb_spec (N.of_nat (128 - 1 - j)) 64) as [Hk|Hk].
  - assert (E : j = 1 * 64 + (j - 64)) by lia. rewrite E at 1 2.
    rewrite Nat.div_add_l, (Nat.add_comm (1 * 64)), Nat.mod_add, Nat.div_small, Nat.mod_small by lia.
    cbn [nth Nat.add]. f_equal. lia.
  - rewrite Nat.div_small, Nat.mod_small by lia. cbn [nth]. f_equal. lia.
Qed.

(** x times the matrix whose rows, last first, are rB *)
Fixpoint rp (x : N) (rB : list N) : N :=
  match rB with
  | [] => 0%N
  | b :: r => N.lxor (if N.odd x then b else 0%N) (rp (N.div2 x) r)
  end.

Lemma xsum_S_l : forall n f, xsum (S n) f = xorb (f 0) (xsum n (fun k => f (S k))).
Proof.
  induction n as [|n IH]; intros f; [apply xorb_comm|].
  change (xsum (S (S n)) f) with (xorb (xsum (S n) f) (f (S n))).
  rewrite IH. cbn [xsum]. apply xorb_assoc.
Qed.

Lemma rp_spec : forall rB x c,
  N.testbit (rp x rB) c =
  xsum (length rB) (fun k => N.testbit x (N.of_nat k) && N.testbit (nth k rB 0%N) c).
Proof.
  induction rB as [|b r IH]; intros x c.
  - reflexivity.
  - cbn [rp length]. rewrite xsum_S_l, N.lxor_spec. cbn [nth]. f_equal.
    + change (N.of_nat 0) with 0%N. rewrite N.bit0_odd. destruct (N.odd x); [reflexivity|].
      apply N.bits_0.
    + rewrite IH. apply xsum_ext. intros k Hk. f_equal.
      rewrite N.div2_spec, N.shiftr_spec by apply N.le_0_l. f_equal. lia.
Qed.

Definition rowsr (m : list (list N)) : list N := rev (map rown m).

Lemma nth_rowsr : forall m k, k < length m ->
  nth k (rowsr m) 0%N = rown (nth (length m - 1 - k) m []).
Proof.
  intros m k Hk. unfold rowsr. rewrite rev_nth by (rewrite map_length; lia).
  rewrite map_length. change 0%N with (rown []). rewrite map_nth. f_equal. f_equal. lia.
Qed.

Lemma rp_row : forall w A B i j, small w -> wfM w A -> wfM w B -> i < dim w -> j < dim w ->
  fmul (dim w) (mbit w A) (mbit w B) i j =
  N.testbit (rp (rown (nth i A [])) (rowsr B)) (N.of_nat (dim w - 1 - j)).
Proof.
  intros w A B i j Hs HA HB Hi Hj. rewrite rp_spec.
  assert (Hl : length (rowsr B) = dim w).
  { unfold rowsr. rewrite rev_length, map_length. apply HB. }
  rewrite Hl. unfold fmul. rewrite xsum_rev. apply xsum_ext. intros k Hk.
  rewrite (mbit_rown w A), (mbit_rown w B) by (auto; lia).
  rewrite nth_rowsr by (rewrite (proj1 HB); lia). rewrite (proj1 HB).
  f_equal. f_equal. lia.
Qed.

(** A times B is the identity *)
Definition mulid (n : nat) (A B : list (list N)) : bool :=
  let rB := rowsr B in
  forallb (fun i => N.eqb (rp (rown (nth i A [])) rB) (2 ^ N.of_nat (n - 1 - i))) (seq 0 n).

Lemma mulid_ok : forall w A B, small w -> wfM w A -> wfM w B -> mulid (dim w) A B = true ->
  feq (dim w) (fmul (dim w) (mbit w A) (mbit w B)) fid.
Proof.
  intros w A B Hs HA HB H i j Hi Hj. unfold mulid in H. rewrite forallb_forall in H.
  specialize (H i (proj2 (in_seq _ _ _) (conj (Nat.le_0_l i) Hi))). apply N.eqb_eq in H.
  rewrite rp_row by auto. rewrite H. unfold fid. rewrite N.pow2_bits_eqb.
  destruct (Nat.eqb_spec i j) as [->|]; [apply N.eqb_refl|]. apply N.eqb_neq. lia.
Qed.

Definition inv_pair (w : width) (A B : list (list N)) : bool :=
  mat_ofb w (wb w) A && mat_ofb w (wb w) B && mulid (dim w) A B && mulid (dim w) B A.
Lemma inv_pair_ok : forall w A B, small w -> inv_pair w A B = true ->
  wfM w A /\ wfM w B /\ inverse_of (dim w) (mbit w A) (mbit w B).
Proof.
  intros w A B Hs H. unfold inv_pair in H. rewrite !andb_true_iff in H.
  destruct H as [[[H1 H2] H3] H4].
  pose proof (mat_ofb_ok _ _ _ H1) as HA. pose proof (mat_ofb_ok _ _ _ H2) as HB.
  refine (conj HA (conj HB (conj _ _))); apply mulid_ok; auto.
Qed.

(** ** Null vectors *)

Definition vbits (n : nat) (v : N) : list N :=
  map (fun k => if N.testbit v (N.of_nat k) then 1%N else 0%N) (seq 0 n).
Definition nullv (n : nat) (v : N) : fvec := fun j => N.testbit v (N.of_nat (n - 1 - j)).
Definition kills (n : nat) (A : list (list N)) (v : N) : bool :=
  negb (N.eqb v 0) && N.ltb v (2 ^ N.of_nat n) &&
  (let vb := vbits n v in forallb (fun r => N.eqb (rp (rown r) vb) 0) A).

Definition null_vector (n : nat) (A : fmat) (x : fvec) : Prop :=
  (exists i, i < n /\ x i = true) /\ veq n (fapp n A x) (fun _ => false).

Lemma kills_ok : forall w A v, small w -> wfM w A -> kills (dim w) A v = true ->
  null_vector (dim w) (mbit w A) (nullv (dim w) v).
Proof.
  intros w A v Hs HA H. unfold kills in H. rewrite !andb_true_iff in H.
  destruct H as [[H1 H2] H3]. split.
  - apply negb_true_iff, N.eqb_neq in H1. apply N.ltb_lt in H2.
    assert (Hb : (N.log2 v < N.of_nat (dim w))%N) by (apply N.log2_lt_pow2; lia).
    exists (dim w - 1 - N.to_nat (N.log2 v)). split; [lia|]. unfold nullv.
    replace (N.of_nat (dim w - 1 - (dim w - 1 - N.to_nat (N.log2 v)))) with (N.log2 v) by lia.
    apply N.bit_log2; auto.
  - intros i Hi. rewrite forallb_forall in H3.
    assert (Hin : In (nth i A []) A) by (apply nth_In; rewrite (proj1 HA); auto).
    specialize (H3 _ Hin). apply N.eqb_eq in H3.
    assert (E : N.testbit (rp (rown (nth i A [])) (vbits (dim w) v)) 0 = false)
      by (rewrite H3; reflexivity).
    rewrite rp_spec in E. unfold vbits in E. rewrite map_length, seq_length in E.
    unfold fapp. rewrite xsum_rev, <- E. apply xsum_ext. intros k Hk.
    rewrite mbit_rown by (auto; lia). unfold nullv. f_equal.
    + f_equal. lia.
    + rewrite (nth_indep _ 0%N ((fun k => if N.testbit v (N.of_nat k) then 1%N else 0%N) 0))
        by (rewrite map_length, seq_length; auto).
      rewrite (map_nth (fun k => if N.testbit v (N.of_nat k) then 1%N else 0%N)).
      rewrite seq_nth by auto. cbn [Nat.add].
      replace (dim w - 1 - (dim w - 1 - k)) with k by lia.
      destruct (N.testbit v (N.of_nat k)); reflexivity.
Qed.

Lemma null_singular : forall n A x, null_vector n A x -> ~ invertible n A.
Proof.
  intros n A x [H1 H2] [B HB]. apply (null_no_left_inverse n A x H1 H2 B). apply HB.
Qed.

(** a factor on the left keeps null vectors, an invertible factor on the right moves them *)
Lemma null_mul_l : forall n A B x, null_vector n B x -> null_vector n (fmul n A B) x.
Proof.
  intros n A B x [H1 H2]. split; auto. rewrite fmul_fapp, H2.
  intros k Hk. unfold fapp. apply xsum_false. intros; apply andb_false_r.
Qed.
Lemma null_mul_r : forall n A B B' x, inverse_of n B B' -> null_vector n A x ->
  null_vector n (fmul n A B) (fapp n B' x).
Proof.
  intros n A B B' x [HB1 HB2] [[i [Hi Hx]] H2]. split.
  - destruct (existsb (fapp n B' x) (seq 0 n)) eqn:E.
    + apply existsb_exists in E. destruct E as [j [Hj E]]. apply in_seq in Hj.
      exists j. split; [lia|auto].
    + exfalso. assert (Z : veq n (fapp n B' x) (fun _ => false)).
      { intros j Hj. destruct (fapp n B' x j) eqn:F; auto.
        assert (existsb (fapp n B' x) (seq 0 n) = true); [|congruence].
        apply existsb_exists. exists j. split; auto. apply in_seq; lia. }
      assert (E2 : veq n x (fun _ => false)).
      { rewrite <- (fapp_id n x), <- HB1, fmul_fapp, Z.
        intros k Hk. unfold fapp. apply xsum_false. intros; apply andb_false_r. }
      rewrite (E2 i Hi) in Hx. discriminate.
  - rewrite fmul_fapp, <- (fmul_fapp n B B' x), HB1, fapp_id. exact H2.
Qed.
Lemma null_feq : forall n A B x, feq n A B -> null_vector n A x -> null_vector n B x.
Proof. intros n A B x E [H1 H2]. split; auto. rewrite <- E. exact H2. Qed.
