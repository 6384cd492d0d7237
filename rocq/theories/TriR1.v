(** Triangular systems with the matrix on the right: at most 64 columns *)
From Coq Require Import Arith NArith ZArith List Bool Lia ZifyNat.
From Verif Require Import Base Spec LinAlg ModelM4ri SpecM4ri M4ri1 M4riD ModelM4ri2 SpecM4ri2 M4ri9 M4ri15 ModelStrassen ModelTri SpecTri ModelTriR.
Import ListNotations.
Local Open Scope nat_scope.
#[local] Ltac Zify.zify_post_hook ::= Z.to_euclidean_division_equations.

Lemma bitat_word0 : forall M i j, j < 64 -> bitat M i j = tb (rw (nth i (mrows M) []) 0) j.
Proof. intros M i j Hj. unfold bitat. rewrite rowbit_tb, Nat.div_small, Nat.mod_small by exact Hj. reflexivity. Qed.

Lemma right_col_ok : forall n T i lo hi (Q : N -> Prop), okd n n T -> n <= 64 -> i < n -> lo <= hi -> hi <= n ->
  (forall u, (forall k, tb u k = Nat.leb lo k && Nat.ltb k hi && bitat T k i) -> Q u) -> wp (right_col T i lo hi) Q.
Proof.
  intros n T i lo hi Q HT Hn Hi Hlo Hhi HQ. unfold right_col.
  apply (wp_for_up _ (fun c u => forall k, tb u k = Nat.leb lo k && Nat.ltb k c && bitat T k i)); [exact Hlo| | |].
  - intros k. rewrite tb_0. destruct (Nat.leb_spec lo k), (Nat.ltb_spec k lo); try lia; reflexivity.
  - intros c u Hc1 Hc2 IH. apply wp_bind. unfold bit0. apply wp_bind, (wp_wgetd n n); [exact HT|lia|unfold wwidth; lia|]. apply wp_ok. apply wp_ok.
    change (N.testbit (rw (nth c (mrows T) []) 0) (N.of_nat i)) with (tb (rw (nth c (mrows T) []) 0) i). rewrite <- bitat_word0 by lia.
    intros k. destruct (bitat T c i) eqn:E.
    + rewrite tb_lor, tb_bit, IH. destruct (Nat.eqb_spec k c) as [->|Hk].
      * rewrite E. destruct (Nat.leb_spec lo c), (Nat.ltb_spec c (S c)), (Nat.ltb_spec c c); try lia; reflexivity.
      * rewrite orb_false_r. destruct (Nat.ltb_spec k c), (Nat.ltb_spec k (S c)); try lia; reflexivity.
    + rewrite IH. destruct (Nat.eqb_spec k c) as [->|Hk]; [rewrite E, !andb_false_r; reflexivity|].
      destruct (Nat.ltb_spec k c), (Nat.ltb_spec k (S c)); try lia; reflexivity.
  - exact HQ.
Qed.

(** What is added to column i *)
Definition dot (u : N) (B : mzd) (a : nat) : bool := xsum 64 (fun k => tb u k && bitat B a k).

Lemma right_group_ok : forall R C B u i o n (Q : mzd -> Prop), okm R C B -> C <= 64 -> i < C -> o + n <= R -> n <= 64 -> tb u i = false ->
  (forall M, okm R C M -> (forall a j, bitat M a j = if Nat.leb o a && Nat.ltb a (o + n) && Nat.eqb j i then xorb (bitat B a i) (dot u B a) else bitat B a j) -> Q M) ->
  wp (right_group B u i o n) Q.
Proof.
  intros R C B u i o n Q HB HC Hi Ho Hn Hu HQ. unfold right_group.
  assert (HW : 0 < wwidth C) by (unfold wwidth; lia).
  apply wp_bind, (wp_for_up _ (fun c tmp => length tmp = 64 /\ forall b, rw tmp b = if Nat.ltb b c then N.land (rw (nth (o + b) (mrows B) []) 0) u else 0%N)); [lia| | |].
  - split; [apply repeat_length|]. intros b. rewrite rw_repeat. reflexivity.
  - intros c tmp _ Hc [HL E]. apply wp_bind, (wp_wget R C); [exact HB|lia|exact HW|]. apply wp_aset; [lia|].
    split; [rewrite length_upd; exact HL|]. intros b. rewrite rw_upd by lia. destruct (Nat.eqb_spec b c) as [->|Hb].
    + destruct (Nat.ltb_spec c (S c)); [reflexivity|lia].
    + rewrite E. destruct (Nat.ltb_spec b c), (Nat.ltb_spec b (S c)); try lia; reflexivity.
  - intros tmp [HL E]. cbv zeta.
    assert (HT : w64 tmp).
    { intros k b Hb. rewrite E. destruct (Nat.ltb_spec k n); [|apply tb_0]. rewrite tb_land. destruct (tb (rw (nth (o + k) (mrows B) []) 0) b) eqn:F; [|reflexivity].
      destruct HB as (_ & _ & _ & HB). destruct (HB (o + k) ltac:(lia)) as [_ HB']. destruct (HB' _ _ F). lia. }
    destruct (parity64_ok tmp HT) as [_ HP].
    assert (HD : forall b, b < n -> N.testbit (parity64 tmp) (N.of_nat b) = dot u B (o + b)).
    { intros b Hb. change (tb (parity64 tmp) b = dot u B (o + b)). rewrite HP by lia. unfold dot. apply xsum_ext. intros k Hk. rewrite E.
      destruct (Nat.ltb_spec b n); [|lia]. rewrite tb_land, bitat_word0 by exact Hk. apply andb_comm. }
    apply (wp_for_up _ (fun c M => okm R C M /\ forall a j, bitat M a j = if Nat.leb o a && Nat.ltb a (o + c) && Nat.eqb j i then xorb (bitat B a i) (dot u B a) else bitat B a j)); [lia| | |].
    + split; [exact HB|]. intros a j. destruct (Nat.leb_spec o a), (Nat.ltb_spec a (o + 0)); try lia; reflexivity.
    + intros c M _ Hc [HM EM]. rewrite HD by exact Hc. destruct (dot u B (o + c)) eqn:F.
      * apply wp_bind, (wp_wget R C); [exact HM|lia|exact HW|]. apply (wp_wset R C); [exact HM|lia|exact HW| |].
        { intros b. rewrite tb_lxor, tb_bit. destruct (Nat.eqb_spec b i) as [->|Hb]; [lia|]. rewrite xorb_false_r. intros G.
          pose proof HM as (_ & _ & _ & HM'). destruct (HM' (o + c) ltac:(lia)) as [_ HM'']. exact (HM'' _ _ G). }
        intros M' HM' EM'. split; [exact HM'|]. intros a j. rewrite EM'.
        destruct (Nat.eqb_spec a (o + c)) as [->|Ha]; cbn [andb].
        -- destruct (Nat.leb_spec o (o + c)), (Nat.ltb_spec (o + c) (o + S c)); try lia. cbn [andb].
           destruct (Nat.eqb_spec (j / 64) 0) as [Hj|Hj].
           ++ assert (Hj' : j < 64) by lia. rewrite Nat.mod_small by exact Hj'. rewrite tb_lxor, tb_bit, <- bitat_word0 by exact Hj'. rewrite EM.
              destruct (Nat.leb_spec o (o + c)), (Nat.ltb_spec (o + c) (o + c)); try lia. cbn [andb].
              destruct (Nat.eqb_spec j i) as [->|]; [rewrite F; reflexivity|apply xorb_false_r].
           ++ rewrite EM. destruct (Nat.leb_spec o (o + c)), (Nat.ltb_spec (o + c) (o + c)); try lia. cbn [andb].
              destruct (Nat.eqb_spec j i); [lia|reflexivity].
        -- rewrite EM. destruct (Nat.ltb_spec a (o + c)), (Nat.ltb_spec a (o + S c)); try lia; reflexivity.
      * apply wp_ok. split; [exact HM|]. intros a j. rewrite EM.
        destruct (Nat.leb_spec o a), (Nat.ltb_spec a (o + c)), (Nat.ltb_spec a (o + S c)), (Nat.eqb_spec j i); cbn [andb]; try lia; try reflexivity.
        assert (a = o + c) by lia. subst. rewrite F. symmetry. apply xorb_false_r.
    + intros M [HM EM]. apply HQ; assumption.
Qed.

Lemma right_column_ok : forall R C B u i (Q : mzd -> Prop), okm R C B -> C <= 64 -> i < C -> tb u i = false ->
  (forall M, okm R C M -> (forall a j, a < R -> j < C -> bitat M a j = if Nat.eqb j i then xorb (bitat B a i) (dot u B a) else bitat B a j) -> Q M) ->
  wp (right_column B u i) Q.
Proof.
  intros R C B u i Q HB HC Hi Hu HQ. unfold right_column. pose proof HB as (B1 & _). rewrite B1. cbv zeta.
  apply wp_bind, (wp_for_up _ (fun g M => okm R C M /\ forall a j, bitat M a j = if Nat.ltb a (64 * g) && Nat.eqb j i then xorb (bitat B a i) (dot u B a) else bitat B a j)); [lia| | |].
  - split; [exact HB|]. intros a j. destruct (Nat.ltb_spec a (64 * 0)); [lia|reflexivity].
  - intros g M _ Hg [HM EM]. apply (right_group_ok R C); try assumption; try lia. intros M' HM' EM'. split; [exact HM'|]. intros a j. rewrite EM'.
    assert (HD : 64 * g <= a -> dot u M a = dot u B a).
    { intros Ha. apply xsum_ext. intros k _. rewrite EM. destruct (Nat.ltb_spec a (64 * g)); [lia|reflexivity]. }
    rewrite !EM. destruct (Nat.leb_spec (64 * g) a), (Nat.ltb_spec a (64 * g + 64)), (Nat.ltb_spec a (64 * g)), (Nat.ltb_spec a (64 * S g)); cbn [andb]; try lia; try reflexivity.
    destruct (Nat.eqb_spec j i); [rewrite HD by lia; reflexivity|reflexivity].
  - intros M [HM EM]. set (G := (R - 1) / 64) in *. apply (right_group_ok R C); try assumption; try lia.
    intros M' HM' EM'. apply HQ; [exact HM'|]. intros a j Ha Hj. rewrite EM'.
    assert (HD : 64 * G <= a -> dot u M a = dot u B a).
    { intros Ha'. apply xsum_ext. intros k _. rewrite EM. destruct (Nat.ltb_spec a (64 * G)); [lia|reflexivity]. }
    rewrite !EM. destruct (Nat.leb_spec (64 * G) a), (Nat.ltb_spec a (64 * G + (R - 64 * G))), (Nat.ltb_spec a (64 * G)); cbn [andb]; try lia; try reflexivity.
    destruct (Nat.eqb_spec j i); [rewrite HD by lia; reflexivity|reflexivity].
Qed.

(** X T = B *)
Definition rsol (R C : nat) (T B0 : fmat) (M : mzd) : Prop := okm R C M /\ same R C (fmul C (bitat M) T) B0.

Lemma xsum_only : forall n g k, k < n -> xsum n (fun x => if Nat.eqb x k then g x else false) = g k.
Proof.
  intros n g k H. induction n as [|n IH]; [lia|]. cbn [xsum]. destruct (Nat.eqb_spec n k) as [->|Hn].
  - rewrite xsum_false; [apply xorb_false_l || (destruct (g k); reflexivity)|]. intros x Hx. destruct (Nat.eqb_spec x k); [lia|reflexivity].
  - rewrite IH by lia. destruct (g k); reflexivity.
Qed.
Lemma xsum_widen : forall n m g, n <= m -> (forall k, n <= k -> k < m -> g k = false) -> xsum m g = xsum n g.
Proof.
  intros n m g H Z. induction m as [|m IH]; [assert (n = 0) by lia; subst; reflexivity|].
  destruct (Nat.eq_dec n (S m)) as [->|]; [reflexivity|]. cbn [xsum]. rewrite Z by lia. rewrite IH; [|lia|intros; apply Z; lia].
  destruct (xsum n g); reflexivity.
Qed.

Lemma unit_lower_col : forall C T (X : fmat) x y, y < C -> fmul C X (unit_lower T) x y = xorb (X x y) (xsum C (fun k => Nat.ltb y k && (X x k && T k y))).
Proof.
  intros C T X x y Hy. unfold fmul. rewrite <- (xsum_only C (fun k => X x k) y Hy). rewrite <- xsum_xorb. apply xsum_ext. intros k Hk. unfold unit_lower.
  destruct (Nat.ltb_spec y k), (Nat.eqb_spec k y); try lia; cbn [andb]; try (rewrite ?andb_true_r, ?andb_false_r, ?xorb_false_r, ?xorb_false_l; reflexivity).
Qed.
Lemma unit_upper_col : forall C T (X : fmat) x y, y < C -> fmul C X (unit_upper T) x y = xorb (X x y) (xsum C (fun k => Nat.ltb k y && (X x k && T k y))).
Proof.
  intros C T X x y Hy. unfold fmul. rewrite <- (xsum_only C (fun k => X x k) y Hy). rewrite <- xsum_xorb. apply xsum_ext. intros k Hk. unfold unit_upper.
  destruct (Nat.ltb_spec k y), (Nat.eqb_spec k y); try lia; cbn [andb]; try (rewrite ?andb_true_r, ?andb_false_r, ?xorb_false_r, ?xorb_false_l; reflexivity).
Qed.

Lemma lower_right_base_ok : forall R C T B (Q : mzd -> Prop), okd C C T -> okm R C B -> C <= 64 ->
  (forall M, rsol R C (unit_lower (bitat T)) (bitat B) M -> Q M) -> wp (lower_right_base T B) Q.
Proof.
  intros R C T B Q HT HB HC HQ. unfold lower_right_base. pose proof HB as (_ & B2 & _). rewrite B2.
  apply (wp_for_down _ (fun c M => okm R C M /\ forall a j, a < R -> j < C ->
     bitat M a j = if Nat.leb c j then xorb (bitat B a j) (xsum C (fun k => Nat.ltb j k && (bitat M a k && bitat T k j))) else bitat B a j)); [lia| | |].
  - split; [exact HB|]. intros a j _ Hj. destruct (Nat.leb_spec C j); [lia|reflexivity].
  - intros i M _ Hi [HM EM]. rewrite (proj1 (proj2 HM)). apply wp_bind, (right_col_ok C T i (i + 1) C); [exact HT|exact HC|exact Hi|lia|lia|]. intros u Hu.
    assert (Hui : tb u i = false) by (rewrite Hu; destruct (Nat.leb_spec (i + 1) i); [lia|reflexivity]).
    apply (right_column_ok R C); [exact HM|exact HC|exact Hi|exact Hui|]. intros M' HM' EM'. split; [exact HM'|]. intros a j Ha Hj. rewrite EM' by assumption.
    destruct (Nat.eqb_spec j i) as [->|Hne].
    + rewrite EM by assumption. destruct (Nat.leb_spec (S i) i), (Nat.leb_spec i i); try lia. f_equal. unfold dot. rewrite (xsum_widen C 64); [|exact HC|intros k Hk1 Hk2; rewrite Hu; destruct (Nat.ltb_spec k C); [lia|rewrite andb_false_r; reflexivity]].
      apply xsum_ext. intros k Hk. rewrite Hu, EM' by assumption. destruct (Nat.leb_spec (i + 1) k), (Nat.ltb_spec i k), (Nat.ltb_spec k C), (Nat.eqb_spec k i); try lia; cbn [andb]; try reflexivity. apply andb_comm.
    + rewrite EM by assumption. destruct (Nat.leb_spec (S i) j), (Nat.leb_spec i j); try lia; try reflexivity. f_equal. apply xsum_ext. intros k Hk.
      rewrite EM' by assumption. destruct (Nat.ltb_spec j k), (Nat.eqb_spec k i); try lia; reflexivity.
  - intros M [HM EM]. apply HQ. split; [exact HM|]. intros a j Ha Hj. rewrite unit_lower_col by exact Hj. rewrite (EM a j Ha Hj) at 1. cbn [Nat.leb].
    rewrite xorb_assoc, xorb_nilpotent. apply xorb_false_r.
Qed.

Lemma upper_right_base_ok : forall R C T B (Q : mzd -> Prop), okd C C T -> okm R C B -> C <= 64 ->
  (forall M, rsol R C (unit_upper (bitat T)) (bitat B) M -> Q M) -> wp (upper_right_base T B) Q.
Proof.
  intros R C T B Q HT HB HC HQ. unfold upper_right_base. pose proof HB as (_ & B2 & _). rewrite B2.
  destruct (Nat.eq_dec C 0) as [->|HC0].
  { cbn. apply HQ. split; [exact HB|]. intros a j _ Hj. lia. }
  apply (wp_for_up _ (fun c M => okm R C M /\ forall a j, a < R -> j < C ->
     bitat M a j = if Nat.ltb j c then xorb (bitat B a j) (xsum C (fun k => Nat.ltb k j && (bitat M a k && bitat T k j))) else bitat B a j)); [lia| | |].
  - split; [exact HB|]. intros a j _ Hj. destruct (Nat.ltb_spec j 1); [|reflexivity]. assert (j = 0) by lia. subst. rewrite xsum_false; [symmetry; apply xorb_false_r|reflexivity].
  - intros i M Hi0 Hi [HM EM]. apply wp_bind, (right_col_ok C); [exact HT|exact HC|exact Hi|lia|lia|]. intros u Hu.
    assert (Hui : tb u i = false) by (rewrite Hu; destruct (Nat.ltb_spec i i); [lia|rewrite andb_false_r; reflexivity]).
    apply (right_column_ok R C); [exact HM|exact HC|exact Hi|exact Hui|]. intros M' HM' EM'. split; [exact HM'|]. intros a j Ha Hj. rewrite EM' by assumption.
    destruct (Nat.eqb_spec j i) as [->|Hne].
    + rewrite EM by assumption. destruct (Nat.ltb_spec i i), (Nat.ltb_spec i (S i)); try lia. f_equal. unfold dot. rewrite (xsum_widen C 64); [|exact HC|intros k Hk1 Hk2; rewrite Hu; destruct (Nat.ltb_spec k i); [lia|rewrite andb_false_r; reflexivity]].
      apply xsum_ext. intros k Hk. rewrite Hu, EM' by assumption. destruct (Nat.ltb_spec k i), (Nat.eqb_spec k i); try lia; cbn [andb Nat.leb]; try reflexivity. apply andb_comm.
    + rewrite EM by assumption. destruct (Nat.ltb_spec j i), (Nat.ltb_spec j (S i)); try lia; try reflexivity. f_equal. apply xsum_ext. intros k Hk.
      rewrite EM' by assumption. destruct (Nat.ltb_spec k j), (Nat.eqb_spec k i); try lia; reflexivity.
  - intros M [HM EM]. apply HQ. split; [exact HM|]. intros a j Ha Hj. rewrite unit_upper_col by exact Hj. rewrite (EM a j Ha Hj) at 1. destruct (Nat.ltb_spec j C); [|lia].
    rewrite xorb_assoc, xorb_nilpotent. apply xorb_false_r.
Qed.
