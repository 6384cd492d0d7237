(** Windows whose last words hold bits of the matrix around them: reading such a matrix, ModelM4ri.v *)
From Coq Require Import Arith NArith ZArith List Bool Lia ZifyNat.
From Verif Require Import Base Spec LinAlg ModelM4ri SpecM4ri M4ri1.
Import ListNotations.
Local Open Scope nat_scope.
#[local] Ltac Zify.zify_post_hook ::= Z.to_euclidean_division_equations.

Definition wfd (C : nat) (row : list N) : Prop :=
  length row = wwidth C /\ forall k b, tb (rw row k) b = true -> b < 64.
(** As [okm], the bits beyond column C are arbitrary *)
Definition okd (R C : nat) (M : mzd) : Prop :=
  mnrows M = R /\ mncols M = C /\ length (mrows M) = R /\ forall i, i < R -> wfd C (nth i (mrows M) []).

Lemma wfr_wfd : forall C row, wfr C row -> wfd C row.
Proof. intros C row [H1 H2]. split; [exact H1|]. intros k b H. apply (H2 k b H). Qed.
Lemma okm_okd : forall R C M, okm R C M -> okd R C M.
Proof. intros R C M (H1 & H2 & H3 & H4). refine (conj H1 (conj H2 (conj H3 _))). intros i Hi. apply wfr_wfd, H4, Hi. Qed.
Lemma okd_width : forall R C M, okd R C M -> mwidth M = wwidth C.
Proof. intros R C M (_ & H & _). unfold mwidth. rewrite H. reflexivity. Qed.
Lemma okd_row : forall R C M i, okd R C M -> i < R -> length (nth i (mrows M) []) = wwidth C.
Proof. intros R C M i (_ & _ & _ & H) Hi. apply H. exact Hi. Qed.
Lemma wfd_tb : forall C row k b, wfd C row -> 64 <= b -> tb (rw row k) b = false.
Proof. intros C row k b [_ H] HF. destruct (tb (rw row k) b) eqn:E; auto. apply H in E. lia. Qed.

Lemma wp_aget_rowd : forall R C M i (Q : list N -> Prop), okd R C M -> i < R ->
  Q (nth i (mrows M) []) -> wp (aget (mrows M) i) Q.
Proof. intros R C M i Q (_ & _ & H & _) Hi HQ. apply (wp_aget _ _ _ []); [lia|exact HQ]. Qed.
Lemma wp_wgetd : forall R C M i k (Q : N -> Prop), okd R C M -> i < R -> k < wwidth C ->
  Q (rw (nth i (mrows M) []) k) -> wp (wget M i k) Q.
Proof.
  intros R C M i k Q HM Hi Hk HQ. unfold wget. apply wp_bind, (wp_aget_rowd R C); auto.
  apply (wp_aget _ _ _ 0%N); [rewrite (okd_row R C M i HM Hi); exact Hk|exact HQ].
Qed.
Lemma wp_read_bitd : forall R C M i j (Q : bool -> Prop), okd R C M -> i < R -> j < C ->
  Q (bitat M i j) -> wp (mzd_read_bit M i j) Q.
Proof.
  intros R C M i j Q HM Hi Hj HQ. unfold mzd_read_bit. apply wp_bind, (wp_wgetd R C); auto using wwidth_lt.
  apply wp_ok. rewrite get_bit_tb. exact HQ.
Qed.

Lemma wp_read_bitsd : forall R C M i y n (Q : N -> Prop), okd R C M -> i < R -> 1 <= n -> n <= 64 -> y + n <= C ->
  (forall v, (forall l, tb v l = Nat.ltb l n && bitat M i (y + l)) -> Q v) ->
  wp (mzd_read_bits M i y n) Q.
Proof.
  intros R C M i y n Q HM Hi Hn1 Hn2 Hy HQ. unfold mzd_read_bits.
  assert (W : wfd C (nth i (mrows M) [])) by (apply HM; auto).
  assert (Hk := wwidth_lt C y ltac:(lia)). assert (Hk2 := wwidth_lt C (y + n - 1) ltac:(lia)).
  assert (W64 : forall k b, 64 <= b -> tb (rw (nth i (mrows M) []) k) b = false).
  { intros k b Hb. apply (wfd_tb C); auto. }
  apply wp_bind. destruct (Nat.leb_spec (y mod 64 + n) 64) as [H|H].
  - apply wp_bind, (wp_wgetd R C); auto. apply wp_shl; [lia|]. intros t Ht. apply wp_shr; [lia|].
    intros v Hv. apply HQ. intros l. rewrite Hv, Ht. unfold bitat. rewrite rowbit_tb.
    destruct (Nat.leb_spec (64 - (y mod 64 + n)) (l + (64 - n))); [|lia].
    destruct (Nat.ltb_spec (l + (64 - n)) 64), (Nat.ltb_spec l n); try lia; cbn [andb];
      rewrite ?andb_true_r, ?andb_false_r; auto.
    replace ((y + l) / 64) with (y / 64) by lia. f_equal. lia.
  - apply wp_bind, (wp_wgetd R C); auto; [lia|]. apply wp_bind, (wp_wgetd R C); auto.
    apply wp_bind. apply wp_shl; [lia|]. intros hi Hhi. apply wp_bind. apply wp_shr; [lia|]. intros lo Hlo.
    apply wp_ok. apply wp_shr; [lia|]. intros v Hv. apply HQ. intros l. rewrite Hv, tb_lor, Hhi, Hlo.
    unfold bitat. rewrite rowbit_tb.
    destruct (Nat.ltb_spec l n) as [Hl|Hl]; cbn [andb].
    + destruct (Nat.ltb_spec (l + (64 - n)) 64); [|lia]. rewrite andb_true_r.
      destruct (Nat.leb_spec (64 - (y mod 64 + n - 64)) (l + (64 - n))); cbn [andb].
      * rewrite (W64 (y / 64)) by lia. rewrite orb_false_r. replace ((y + l) / 64) with (y / 64 + 1) by lia. f_equal. lia.
      * cbn [orb]. replace ((y + l) / 64) with (y / 64) by lia. f_equal. lia.
    + destruct (Nat.ltb_spec (l + (64 - n)) 64); [lia|]. rewrite andb_false_r. apply W64. lia.
Qed.

(** A copy is clean *)
Lemma wp_copyd : forall R C P (Q : mzd -> Prop), okd R C P -> 0 < C ->
  (forall M, okm R C M -> (forall i j, i < R -> j < C -> bitat M i j = bitat P i j) -> Q M) -> wp (mzd_copy P) Q.
Proof.
  intros R C P Q HP HC HQ. unfold mzd_copy. pose proof HP as (H1 & H2 & H3 & H4).
  rewrite (okd_width R C P HP), H1, H2. destruct (init_ok R C) as [(I1 & I2 & I3 & I4) _].
  assert (HW := wwidth_pos C HC).
  apply wp_bind. apply wp_copy_into; [exact HW|lia|lia| |].
  { intros i Hi. rewrite (proj1 (I4 i Hi)), (proj1 (H4 i Hi)). lia. }
  intros rs L E _. apply wp_ok.
  assert (HB : forall b, tb (high_bitmask P) b = Nat.ltb b 64 && Nat.ltb (64 * (wwidth C - 1) + b) C).
  { intros b. replace (high_bitmask P) with (high_bitmask (mzd_init R C)) by (unfold high_bitmask; rewrite H2; reflexivity).
    apply (tb_high R C); [apply init_ok|exact HC]. }
  assert (F : forall i k b, i < R -> tb (rw (nth i rs []) k) b = tb (rw (nth i (mrows P) []) k) b && Nat.ltb (64 * k + b) C).
  { intros i k b Hi. destruct (E i Hi) as [_ E']. rewrite E'. cbn [Nat.leb andb]. rewrite !Nat.add_0_l.
    replace (k - 0 + 0) with k by lia. simpl mrows. rewrite nth_repeat_in by exact Hi. rewrite rw_repeat, tb_0.
    rewrite HB.
    destruct (Nat.ltb_spec k (wwidth C)), (Nat.ltb_spec k (wwidth C - 1)); try lia; cbn [andb orb].
    - destruct (tb (rw (nth i (mrows P) []) k) b) eqn:Et; [|reflexivity]. apply (H4 i Hi) in Et.
      destruct (Nat.ltb_spec (64 * k + b) C); [reflexivity|unfold wwidth in *; lia].
    - replace k with (wwidth C - 1) by lia.
      destruct (tb (rw (nth i (mrows P) []) (wwidth C - 1)) b) eqn:Et; [|match goal with |- (if ?x then _ else _) = _ => destruct x end; reflexivity].
      destruct (Nat.ltb_spec b 64) as [Hb|Hb]; cbn [andb].
      + destruct (Nat.ltb (64 * (wwidth C - 1) + b) C); reflexivity.
      + apply (H4 i Hi) in Et. lia.
    - destruct (Nat.ltb_spec (64 * k + b) C); [unfold wwidth in *; lia|]. rewrite andb_false_r. reflexivity. }
  apply HQ.
  - refine (conj eq_refl (conj eq_refl (conj _ _))); [simpl; rewrite L; exact I3|].
    intros i Hi. destruct (E i Hi) as [E1 _]. split; [simpl; rewrite E1; apply I4; exact Hi|].
    intros k b. simpl. rewrite F by exact Hi. intros Ht. apply andb_prop in Ht. destruct Ht as [Ht1 Ht2].
    apply (H4 i Hi) in Ht1. apply Nat.ltb_lt in Ht2. lia.
  - intros i j Hi Hj. unfold bitat. simpl. rewrite !rowbit_tb, F by exact Hi.
    destruct (Nat.ltb_spec (64 * (j / 64) + j mod 64) C); [apply andb_true_r|lia].
Qed.
#[global] Hint Resolve okm_okd : core.
