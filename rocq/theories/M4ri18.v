(** mzd_add, mzd_cmp, mzd_equal, mzd_is_zero, mzd_concat, mzd_stack, mzd_submatrix of ModelM4ri2.v *)
From Coq Require Import Arith NArith ZArith List Bool Lia ZifyNat.
From Verif Require Import Base Spec LinAlg ModelM4ri SpecM4ri M4ri1 ModelM4ri2 M4ri9 M4ri16.
Import ListNotations.
Local Open Scope nat_scope.
#[local] Ltac Zify.zify_post_hook ::= Z.to_euclidean_division_equations.

(** ** mzd_add *)
Lemma wp_add : forall R C A B (Q : mzd -> Prop), okm R C A -> okm R C B ->
  (forall M, okm R C M -> (forall i j, i < R -> bitat M i j = xorb (bitat A i j) (bitat B i j)) -> Q M) ->
  wp (mzd_add A B) Q.
Proof.
  intros R C A B Q HA HB HQ. unfold mzd_add. rewrite (okm_width R C A HA).
  pose proof HA as [HrA [HcA [HLA HWA]]]. pose proof HB as [HrB [HcB [HLB HWB]]].
  rewrite HrA, HrB, HcA, HcB, !Nat.eqb_refl. cbn [andb negb]. cbv zeta.
  destruct (Nat.eqb_spec (wwidth C) 0) as [E|E].
  { apply wp_ok, HQ; [apply init_ok|]. intros i j Hi. rewrite (proj2 (init_ok R C)).
    unfold bitat. rewrite !rowbit_tb. unfold rw. rewrite !nth_overflow; [reflexivity| |].
    - rewrite (okm_row R C B i HB Hi). lia.
    - rewrite (okm_row R C A i HA Hi). lia. }
  assert (HC : 0 < C) by (unfold wwidth in E; lia).
  destruct (init_ok R C) as [HI HZ].
  apply wp_bind, (wp_rows_loop R C (mzd_init R C) _ (fun i j => xorb (bitat A i j) (bitat B i j))); [exact HI| |].
  - intros i rs Hi HLr Hrow.
    apply wp_bind, (wp_aget_row R C); auto. apply wp_bind, (wp_aget_row R C); auto.
    apply wp_bind, (wp_aget _ _ _ []); [lia|]. rewrite Hrow.
    set (a := nth i (mrows A) []). set (b := nth i (mrows B) []). set (c := nth i (mrows (mzd_init R C)) []).
    assert (Wa : wfr C a) by (apply HWA; exact Hi). assert (Wb : wfr C b) by (apply HWB; exact Hi).
    assert (Wc : wfr C c) by (apply HI; exact Hi).
    pose proof (proj1 Wa) as La. pose proof (proj1 Wb) as Lb. pose proof (proj1 Wc) as Lc.
    apply wp_bind, (wp_row_loop _ _ _ (fun k _ => N.lxor (rw a k) (rw b k))); [lia| |].
    { intros k _ Hk. apply wp_bind, (wp_aget _ _ _ 0%N); [lia|]. apply wp_bind, (wp_aget _ _ _ 0%N); [lia|].
      apply wp_ok. reflexivity. }
    intros c1 Lc1 H1. apply wp_bind, (wp_aget _ _ _ 0%N); [lia|]. apply wp_bind, (wp_aget _ _ _ 0%N); [lia|].
    apply wp_bind, (wp_aget _ _ _ 0%N); [lia|].
    fold (rw a (wwidth C - 1)) (rw b (wwidth C - 1)) (rw c1 (wwidth C - 1)).
    apply wp_bind, wp_aset; [lia|]. apply wp_aset; [lia|]. eexists. split; [reflexivity|].
    set (x := N.lxor _ (N.land _ _)).
    assert (Hx : forall k t, tb (rw (upd c1 (wwidth C - 1) x) k) t = xorb (tb (rw a k) t) (tb (rw b k) t)).
    { intros k t. rewrite rw_upd by lia. destruct (Nat.eqb_spec k (wwidth C - 1)) as [->|Ne].
      - unfold x. rewrite tb_lxor, tb_land, !tb_lxor, (tb_high R C) by assumption.
        rewrite H1. replace (Nat.leb 0 (wwidth C - 1) && Nat.ltb (wwidth C - 1) (wwidth C - 1)) with false
          by (rewrite Nat.ltb_irrefl, andb_comm; reflexivity).
        destruct (Nat.ltb t 64 && Nat.ltb (64 * (wwidth C - 1) + t) C) eqn:E1.
        + rewrite andb_true_r. destruct (tb (rw a _) t), (tb (rw b _) t), (tb (rw c _) t); reflexivity.
        + rewrite andb_false_r, xorb_false_r.
          assert (F : t < 64 -> 64 * (wwidth C - 1) + t < C -> False).
          { intros F1 F2. apply Nat.ltb_lt in F1, F2. rewrite F1, F2 in E1. discriminate. }
          rewrite (wfr_tb C a), (wfr_tb C b), (wfr_tb C c) by assumption. reflexivity.
      - rewrite H1. destruct (Nat.leb_spec 0 k), (Nat.ltb_spec k (wwidth C - 1)); try lia; cbn [andb].
        + apply tb_lxor.
        + unfold rw. rewrite !nth_overflow by lia. rewrite tb_0. reflexivity. }
    split; [split; [rewrite length_upd; lia|]|].
    + intros k t. rewrite Hx. intros Ht. destruct (tb (rw a k) t) eqn:E1; [apply (proj2 Wa); exact E1|].
      destruct (tb (rw b k) t) eqn:E2; [apply (proj2 Wb); exact E2|discriminate].
    + intros j. rewrite !rowbit_tb, Hx. unfold bitat. rewrite !rowbit_tb. reflexivity.
  - intros rs HM Hs. apply wp_ok, HQ; [exact HM|]. intros i j Hi. apply Hs. exact Hi.
Qed.

(** ** Comparison of numbers by their highest different bit *)
Lemma lt_bits : forall x y d, tb x d = false -> tb y d = true -> (forall b, d < b -> tb x b = tb y b) -> (x < y)%N.
Proof.
  intros x y d Hx Hy Hb. destruct (N.lt_ge_cases x y) as [H|H]; [exact H|exfalso].
  assert (Hs : N.shiftr x (N.of_nat (S d)) = N.shiftr y (N.of_nat (S d))).
  { apply tb_inj. intros b. rewrite !tb_shr. apply Hb. lia. }
  assert (H1 : (N.shiftr y (N.of_nat d) <= N.shiftr x (N.of_nat d))%N).
  { rewrite !N.shiftr_div_pow2. apply N.div_le_mono; [apply N.pow_nonzero; lia|exact H]. }
  assert (D : forall z, N.shiftr z (N.of_nat d) = (2 * N.shiftr z (N.of_nat (S d)) + N.b2n (tb z d))%N).
  { intros z. rewrite Nat2N.inj_succ, <- N.add_1_r, <- N.shiftr_shiftr.
    replace (tb z d) with (N.odd (N.shiftr z (N.of_nat d)))
      by (rewrite <- N.bit0_odd, N.shiftr_spec', N.add_0_l; reflexivity).
    rewrite <- N.div2_spec. apply N.div2_odd. }
  rewrite (D x), (D y), Hs, Hx, Hy in H1. cbn [N.b2n] in H1. lia.
Qed.

(** a precedes b: the rows agree above column c, where a has 0 and b has 1 *)
Definition wless (x y : N) : Prop :=
  exists d, d < 64 /\ tb x d = false /\ tb y d = true /\ forall b, d < b -> tb x b = tb y b.
Lemma diff_bit : forall x y, (x < 2 ^ 64)%N -> (y < 2 ^ 64)%N -> x <> y -> wless x y \/ wless y x.
Proof.
  intros x y Hx Hy Ne. assert (Hz : N.lxor x y <> 0%N) by (intros E; apply N.lxor_eq in E; auto).
  set (d := N.to_nat (N.log2 (N.lxor x y))).
  assert (Hd : tb (N.lxor x y) d = true).
  { unfold tb, d. rewrite N2Nat.id. apply N.bit_log2. exact Hz. }
  assert (Hab : forall b, d < b -> tb x b = tb y b).
  { intros b Hb. assert (H : tb (N.lxor x y) b = false).
    { unfold tb. apply N.bits_above_log2. unfold d in Hb. lia. }
    rewrite tb_lxor in H. destruct (tb x b), (tb y b); try discriminate; reflexivity. }
  change (2 ^ 64)%N with (2 ^ N.of_nat 64)%N in Hx, Hy. rewrite tb_lt in Hx, Hy.
  rewrite tb_lxor in Hd.
  assert (Hlt : d < 64).
  { destruct (Nat.lt_ge_cases d 64) as [H|H]; [exact H|]. rewrite (Hx d H), (Hy d H) in Hd. discriminate. }
  destruct (tb x d) eqn:E1, (tb y d) eqn:E2; try discriminate.
  - right. exists d. split; [exact Hlt|]. split; [exact E2|]. split; [exact E1|]. intros b Hb. symmetry. auto.
  - left. exists d. auto.
Qed.

Lemma cmp_words_ok : forall x y, (x < 2 ^ 64)%N -> (y < 2 ^ 64)%N ->
  match cmp_words x y with
  | None => x = y
  | Some z => (z = (-1)%Z /\ wless x y) \/ (z = 1%Z /\ wless y x)
  end.
Proof.
  intros x y Hx Hy. unfold cmp_words. assert (L : forall a b, wless a b -> (a < b)%N).
  { intros a b [d [_ [H1 [H2 H3]]]]. exact (lt_bits a b d H1 H2 H3). }
  destruct (N.ltb_spec x y) as [H|H].
  - left. split; [reflexivity|]. destruct (diff_bit x y Hx Hy) as [D|D]; [lia|exact D|]. apply L in D. lia.
  - destruct (N.ltb_spec y x) as [H'|H']; [|lia].
    right. split; [reflexivity|]. destruct (diff_bit x y Hx Hy) as [D|D]; [lia| |exact D]. apply L in D. lia.
Qed.

(** ** mzd_cmp *)
(** Row a precedes row b: they agree beyond some column c, where a has 0 and b has 1 *)
Definition rless (C : nat) (a b : nat -> bool) : Prop :=
  exists c, c < C /\ a c = false /\ b c = true /\ forall c', c < c' -> c' < C -> a c' = b c'.
Definition mless (R C : nat) (A B : fmat) : Prop :=
  exists i, i < R /\ (forall i' c, i' < i -> c < C -> A i' c = B i' c) /\ rless C (A i) (B i).

Lemma wfr_64 : forall C row k, wfr C row -> (rw row k < 2 ^ 64)%N.
Proof.
  intros C row k [_ H]. change (2 ^ 64)%N with (2 ^ N.of_nat 64)%N. apply tb_lt. intros b Hb.
  destruct (tb (rw row k) b) eqn:E; [|reflexivity]. apply H in E. lia.
Qed.
Lemma high_top : forall R C M row, okm R C M -> 0 < C -> wfr C row ->
  N.land (rw row (wwidth C - 1)) (high_bitmask M) = rw row (wwidth C - 1).
Proof.
  intros R C M row HM HC HW. apply tb_inj. intros b. rewrite tb_land, (tb_high R C) by assumption.
  destruct (tb (rw row (wwidth C - 1)) b) eqn:E; [|reflexivity]. apply (proj2 HW) in E.
  destruct (Nat.ltb_spec b 64), (Nat.ltb_spec (64 * (wwidth C - 1) + b) C); lia || reflexivity.
Qed.
Lemma wless_rless : forall C a b k, wfr C a -> wfr C b -> wless (rw a k) (rw b k) ->
  (forall k', k < k' -> k' < wwidth C -> rw a k' = rw b k') -> rless C (rowbit a) (rowbit b).
Proof.
  intros C a b k Ha Hb [d [Hd [H1 [H2 H3]]]] Hk. exists (64 * k + d).
  split; [apply (proj2 Hb k d H2)|]. rewrite !rowbit_rw by exact Hd. split; [exact H1|]. split; [exact H2|].
  intros c' Hc HC. rewrite !rowbit_tb. destruct (Nat.eq_dec (c' / 64) k) as [<-|Ne]; [apply H3; lia|].
  f_equal. apply Hk; [lia|]. apply wwidth_lt. exact HC.
Qed.
Lemma rows_same : forall C a b, (forall k, k < wwidth C -> rw a k = rw b k) -> forall c, c < C -> rowbit a c = rowbit b c.
Proof. intros C a b H c Hc. rewrite !rowbit_tb, H; [reflexivity|]. apply wwidth_lt. exact Hc. Qed.

Definition cmp_spec (R C : nat) (A B : fmat) (z : Z) : Prop :=
  (z = (-1)%Z /\ mless R C A B) \/ (z = 1%Z /\ mless R C B A) \/
  (z = 0%Z /\ forall i c, i < R -> c < C -> A i c = B i c).
Lemma wp_cmp : forall R C A B (Q : Z -> Prop), okm R C A -> okm R C B -> 1 <= C ->
  (forall z, cmp_spec R C (bitat A) (bitat B) z -> Q z) -> wp (mzd_cmp A B) Q.
Proof.
  intros R C A B Q HA HB HC HQ. unfold mzd_cmp. rewrite (okm_width R C A HA).
  pose proof HA as [HrA [HcA [HLA HWA]]]. pose proof HB as [HrB [HcB [HLB HWB]]].
  rewrite HrA, HrB, HcA, HcB, !Nat.ltb_irrefl. cbv zeta.
  pose proof (wwidth_pos C HC) as Hw.
  apply wp_bind, (wp_for_ret _ _ (fun i _ => forall i' c, i' < i -> c < C -> bitat A i' c = bitat B i' c)); [lia| | |].
  - intros i' c Hi. lia.
  - intros i [] _ Hi Hpre. destruct (Nat.eqb_spec (wwidth C) 0) as [E|_]; [lia|].
    apply wp_bind, (wp_aget_row R C); auto. apply wp_bind, (wp_aget_row R C); auto.
    set (a := nth i (mrows A) []). set (b := nth i (mrows B) []).
    assert (Wa : wfr C a) by (apply HWA; exact Hi). assert (Wb : wfr C b) by (apply HWB; exact Hi).
    pose proof (proj1 Wa) as La. pose proof (proj1 Wb) as Lb.
    apply wp_bind, (wp_aget _ _ _ 0%N); [lia|]. apply wp_bind, (wp_aget _ _ _ 0%N); [lia|].
    fold (rw a (wwidth C - 1)) (rw b (wwidth C - 1)).
    rewrite (high_top R C A a), (high_top R C A b) by assumption.
    assert (Step : forall k z, k < wwidth C -> (forall k', k < k' -> k' < wwidth C -> rw a k' = rw b k') ->
      cmp_words (rw a k) (rw b k) = Some z ->
      wp (Ok z) Q).
    { intros k z Hk Hab E. apply wp_ok, HQ.
      pose proof (cmp_words_ok _ _ (wfr_64 C a k Wa) (wfr_64 C b k Wb)) as P. rewrite E in P.
      destruct P as [[-> P]|[-> P]]; [left|right; left]; (split; [reflexivity|]); exists i; (split; [exact Hi|]).
      - split; [exact Hpre|]. apply (wless_rless C a b k); assumption.
      - split; [intros i' c Hi' Hc; symmetry; apply Hpre; assumption|].
        apply (wless_rless C b a k); try assumption. intros k' H1 H2. symmetry. apply Hab; assumption. }
    destruct (cmp_words (rw a (wwidth C - 1)) (rw b (wwidth C - 1))) as [z|] eqn:E.
    + apply wp_ok. apply (Step (wwidth C - 1)); [lia| |exact E]. intros k' H1 H2. lia.
    + pose proof (cmp_words_ok _ _ (wfr_64 C a (wwidth C - 1) Wa) (wfr_64 C b (wwidth C - 1) Wb)) as P.
      rewrite E in P.
      apply (wp_for_ret _ _ (fun t _ => forall k', wwidth C - 1 - t <= k' -> k' < wwidth C -> rw a k' = rw b k')); [lia| | |].
      * intros k' H1 H2. replace k' with (wwidth C - 1) by lia. exact P.
      * intros t [] _ Ht Hinv. apply wp_bind, (wp_aget _ _ _ 0%N); [lia|]. apply wp_bind, (wp_aget _ _ _ 0%N); [lia|].
        fold (rw a (wwidth C - 1 - 1 - t)) (rw b (wwidth C - 1 - 1 - t)).
        destruct (cmp_words (rw a (wwidth C - 1 - 1 - t)) (rw b (wwidth C - 1 - 1 - t))) as [z|] eqn:E2.
        -- apply wp_ok. apply (Step (wwidth C - 1 - 1 - t)); [lia| |exact E2]. intros k' H1 H2. apply Hinv; lia.
        -- apply wp_ok. pose proof (cmp_words_ok _ _ (wfr_64 C a (wwidth C - 1 - 1 - t) Wa) (wfr_64 C b (wwidth C - 1 - 1 - t) Wb)) as P2.
           rewrite E2 in P2. intros k' H1 H2. destruct (Nat.eq_dec k' (wwidth C - 1 - 1 - t)) as [->|Ne]; [exact P2|].
           apply Hinv; lia.
      * intros [] Hinv i' c Hi' Hc. destruct (Nat.eq_dec i' i) as [->|Ne]; [|apply Hpre; lia].
        apply (rows_same C a b); [|exact Hc]. intros k Hk. apply Hinv; lia.
  - intros [] Hinv. apply wp_ok, HQ. right. right. split; [reflexivity|exact Hinv].
Qed.

(** ** mzd_equal *)
Lemma wp_equal : forall R C A B (Q : bool -> Prop), okm R C A -> okm R C B -> 1 <= C ->
  (forall b, (b = true <-> forall i c, i < R -> c < C -> bitat A i c = bitat B i c) -> Q b) -> wp (mzd_equal A B) Q.
Proof.
  intros R C A B Q HA HB HC HQ. unfold mzd_equal. rewrite (okm_width R C A HA).
  pose proof HA as [HrA [HcA [HLA HWA]]]. pose proof HB as [HrB [HcB [HLB HWB]]].
  rewrite HrA, HrB, HcA, HcB, !Nat.eqb_refl. cbn [negb]. cbv zeta. pose proof (wwidth_pos C HC) as Hw.
  assert (Bad : forall i k, i < R -> k < wwidth C -> rw (nth i (mrows A) []) k <> rw (nth i (mrows B) []) k -> Q false).
  { intros i k Hi Hk Ne. apply HQ. split; [discriminate|]. intros H. exfalso. apply Ne. apply tb_inj. intros b.
    pose proof (HWA i Hi) as Wa. pose proof (HWB i Hi) as Wb.
    destruct (Nat.lt_ge_cases b 64) as [Hb|Hb]; [|rewrite (wfr_tb C (nth i (mrows A) [])), (wfr_tb C (nth i (mrows B) [])) by (assumption || lia); reflexivity].
    destruct (Nat.lt_ge_cases (64 * k + b) C) as [Hc|Hc]; [|rewrite (wfr_tb C (nth i (mrows A) [])), (wfr_tb C (nth i (mrows B) [])) by (assumption || lia); reflexivity].
    rewrite <- !rowbit_rw by exact Hb. apply (H i); assumption. }
  apply wp_bind, (wp_for_ret _ _ (fun i _ => forall i' k, i' < i -> k < wwidth C - 1 ->
    rw (nth i' (mrows A) []) k = rw (nth i' (mrows B) []) k)); [lia| | |].
  - intros i' k Hi'. lia.
  - intros i [] _ Hi Hpre. apply (wp_for_ret _ _ (fun j _ => forall k, k < j ->
      rw (nth i (mrows A) []) k = rw (nth i (mrows B) []) k)); [lia| | |].
    + intros k Hk. lia.
    + intros j [] _ Hj Hinv. apply wp_bind, (wp_wget R C); [assumption|assumption|lia|].
      apply wp_bind, (wp_wget R C); [assumption|assumption|lia|].
      destruct (N.eqb_spec (rw (nth i (mrows A) []) j) (rw (nth i (mrows B) []) j)) as [E|E]; apply wp_ok.
      * intros k Hk. destruct (Nat.eq_dec k j) as [->|Ne]; [exact E|]. apply Hinv. lia.
      * apply wp_ok, (Bad i j); [exact Hi|lia|exact E].
    + intros [] Hinv i' k Hi' Hk. destruct (Nat.eq_dec i' i) as [->|Ne]; [apply Hinv; exact Hk|]. apply Hpre; lia.
  - intros [] H1. apply wp_bind, (wp_for_ret _ _ (fun i _ => forall i', i' < i ->
      rw (nth i' (mrows A) []) (wwidth C - 1) = rw (nth i' (mrows B) []) (wwidth C - 1))); [lia| | |].
    + intros i' Hi'. lia.
    + intros i [] _ Hi Hpre. destruct (Nat.eqb_spec (wwidth C) 0) as [E|_]; [lia|].
      apply wp_bind, (wp_wget R C); [assumption|assumption|lia|].
      apply wp_bind, (wp_wget R C); [assumption|assumption|lia|].
      assert (Hm : N.land (N.lxor (rw (nth i (mrows A) []) (wwidth C - 1)) (rw (nth i (mrows B) []) (wwidth C - 1))) (high_bitmask A) =
        N.lxor (rw (nth i (mrows A) []) (wwidth C - 1)) (rw (nth i (mrows B) []) (wwidth C - 1))).
      { rewrite <- (high_top R C A (nth i (mrows A) [])) at 2 by (auto).
        rewrite <- (high_top R C A (nth i (mrows B) [])) at 2 by (auto).
        apply tb_inj. intros b. rewrite !tb_land, !tb_lxor, !tb_land.
        destruct (tb (high_bitmask A) b); rewrite ?andb_true_r, ?andb_false_r; reflexivity. }
      rewrite Hm. destruct (N.eqb_spec (N.lxor (rw (nth i (mrows A) []) (wwidth C - 1)) (rw (nth i (mrows B) []) (wwidth C - 1))) 0) as [E|E]; apply wp_ok.
      * apply N.lxor_eq in E. intros i' Hi'. destruct (Nat.eq_dec i' i) as [->|Ne]; [exact E|]. apply Hpre. lia.
      * apply wp_ok, (Bad i (wwidth C - 1)); [exact Hi|lia|]. intros E'. rewrite E', N.lxor_nilpotent in E. auto.
    + intros [] H2. apply wp_ok, HQ. split; [|reflexivity]. intros _ i c Hi Hc.
      apply (rows_same C); [|exact Hc]. intros k Hk. destruct (Nat.eq_dec k (wwidth C - 1)) as [->|Ne]; [apply H2; exact Hi|].
      apply H1; [exact Hi|lia].
Qed.

(** ** mzd_is_zero *)
Lemma wp_is_zero : forall R C A (Q : bool -> Prop), okm R C A -> 1 <= C ->
  (forall b, (b = true <-> forall i c, i < R -> c < C -> bitat A i c = false) -> Q b) -> wp (mzd_is_zero A) Q.
Proof.
  intros R C A Q HA HC HQ. unfold mzd_is_zero. rewrite (okm_width R C A HA).
  pose proof HA as [HrA [HcA [HLA HWA]]]. rewrite HrA. cbv zeta. pose proof (wwidth_pos C HC) as Hw.
  apply wp_bind, (wp_for_ret _ _ (fun i s => s = 0%N /\ forall i' c, i' < i -> c < C -> bitat A i' c = false)); [lia| | |].
  - split; [reflexivity|]. intros i' c Hi. lia.
  - intros i s _ Hi [-> Hpre]. destruct (Nat.eqb_spec (wwidth C) 0) as [E|_]; [lia|].
    set (a := nth i (mrows A) []). assert (Wa : wfr C a) by (apply HWA; exact Hi).
    apply wp_bind, (wp_for_up _ (fun j s => s = 0%N <-> forall k, k < j -> rw a k = 0%N)); [lia| | |].
    + split; [intros _ k Hk; lia|reflexivity].
    + intros j s _ Hj Hs. apply wp_bind, (wp_wget R C); [assumption|assumption|lia|]. apply wp_ok. fold a.
      rewrite N.lor_eq_0_iff, Hs. split.
      * intros [H1 H2] k Hk. destruct (Nat.eq_dec k j) as [->|Ne]; [exact H2|]. apply H1. lia.
      * intros H. split; [intros k Hk; apply H; lia|apply H; lia].
    + intros s Hs. apply wp_bind, (wp_wget R C); [assumption|assumption|lia|]. fold a.
      rewrite (high_top R C A a) by assumption.
      assert (Hall : N.lor s (rw a (wwidth C - 1)) = 0%N <-> forall k, k < wwidth C -> rw a k = 0%N).
      { rewrite N.lor_eq_0_iff, Hs. split.
        - intros [H1 H2] k Hk. destruct (Nat.eq_dec k (wwidth C - 1)) as [->|Ne]; [exact H2|]. apply H1. lia.
        - intros H. split; [intros k Hk; apply H; lia|apply H; lia]. }
      destruct (N.eqb_spec (N.lor s (rw a (wwidth C - 1))) 0) as [E|E]; apply wp_ok.
      * split; [exact E|]. apply Hall in E || (rewrite Hall in E). intros i' c Hi' Hc.
        destruct (Nat.eq_dec i' i) as [->|Ne]; [|apply Hpre; lia]. unfold bitat. fold a. rewrite rowbit_tb.
        rewrite (proj1 Hall E) || rewrite E by (apply wwidth_lt; exact Hc). apply tb_0.
      * apply wp_ok, HQ. split; [discriminate|]. intros H. exfalso. apply E. apply Hall. intros k Hk.
        apply tb_inj. intros b. rewrite tb_0. destruct (tb (rw a k) b) eqn:Eb; [|reflexivity].
        destruct (proj2 Wa k b Eb) as [B1 B2]. rewrite <- Eb, <- rowbit_rw by exact B1. apply (H i); assumption.
  - intros s [-> Hz]. apply wp_ok, HQ. split; [intros _; exact Hz|reflexivity].
Qed.
