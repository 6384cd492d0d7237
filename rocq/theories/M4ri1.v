(** Words and rows of M4RI matrices: bit access, row exchange, row addition, reading several bits. *)
From Coq Require Import Arith NArith ZArith List Bool Lia ZifyNat.
From Verif Require Import Base Spec LinAlg ModelM4ri SpecM4ri.
Import ListNotations.
#[local] Ltac Zify.zify_post_hook ::= Z.to_euclidean_division_equations.

Definition tb (w : N) (b : nat) : bool := N.testbit w (N.of_nat b).

Lemma tb_inj : forall x y, (forall b, tb x b = tb y b) -> x = y.
Proof. intros x y H. apply N.bits_inj. intros n. specialize (H (N.to_nat n)). unfold tb in H. rewrite N2Nat.id in H. exact H. Qed.
Lemma tb_0 : forall b, tb 0 b = false.
Proof. intros. apply N.bits_0. Qed.
Lemma tb_lxor : forall x y b, tb (N.lxor x y) b = xorb (tb x b) (tb y b).
Proof. intros. apply N.lxor_spec. Qed.
Lemma tb_land : forall x y b, tb (N.land x y) b = tb x b && tb y b.
Proof. intros. apply N.land_spec. Qed.
Lemma tb_lor : forall x y b, tb (N.lor x y) b = tb x b || tb y b.
Proof. intros. apply N.lor_spec. Qed.
Lemma tb_ldiff : forall x y b, tb (N.ldiff x y) b = tb x b && negb (tb y b).
Proof. intros. apply N.ldiff_spec. Qed.
Lemma tb_shr : forall x n b, tb (N.shiftr x (N.of_nat n)) b = tb x (b + n).
Proof. intros. unfold tb. rewrite N.shiftr_spec by lia. f_equal. lia. Qed.
Lemma tb_shl : forall x n b, tb (N.shiftl x (N.of_nat n)) b = Nat.leb n b && tb x (b - n).
Proof.
  intros. unfold tb. destruct (Nat.leb_spec n b).
  - rewrite N.shiftl_spec_high by lia. simpl. f_equal. lia.
  - rewrite N.shiftl_spec_low by lia. reflexivity.
Qed.
Lemma tb_ones : forall n b, tb (N.ones (N.of_nat n)) b = Nat.ltb b n.
Proof.
  intros. unfold tb. destruct (Nat.ltb_spec b n).
  - apply N.ones_spec_low. lia.
  - apply N.ones_spec_high. lia.
Qed.
Lemma tb_ffff : forall b, tb ffff b = Nat.ltb b 64.
Proof. intros. apply (tb_ones 64). Qed.
Lemma tb_bit : forall n b, tb (N.shiftl 1 (N.of_nat n)) b = Nat.eqb b n.
Proof.
  intros. unfold tb. rewrite N.shiftl_1_l, N.pow2_bits_eqb.
  destruct (Nat.eqb_spec b n); [subst; apply N.eqb_refl|apply N.eqb_neq; lia].
Qed.
Lemma tb_lt : forall w n, (w < 2 ^ N.of_nat n)%N <-> forall b, n <= b -> tb w b = false.
Proof.
  intros w n. split.
  - intros H b Hb. unfold tb. destruct (N.eq_dec w 0) as [->|Hw]; [apply N.bits_0|].
    apply N.bits_above_log2. apply N.log2_lt_pow2 in H; lia.
  - intros H. destruct (N.eq_dec w 0) as [->|Hw]; [apply N.neq_0_lt_0, N.pow_nonzero; lia|].
    apply N.log2_lt_pow2; [lia|]. apply N.nle_gt. intros HH.
    assert (E := H (N.to_nat (N.log2 w)) ltac:(lia)). unfold tb in E. rewrite N2Nat.id, N.bit_log2 in E by exact Hw. discriminate.
Qed.

Lemma get_bit_tb : forall w s, get_bit w s = tb w s.
Proof.
  intros. unfold get_bit. change 1%N with (N.ones 1) at 1. rewrite N.land_ones, <- N.bit0_mod.
  rewrite N.shiftr_spec by lia. rewrite N.add_0_l. unfold tb. destruct (N.testbit w (N.of_nat s)); reflexivity.
Qed.

Lemma wp_shl : forall x n (Q : N -> Prop), n < 64 ->
  (forall y, (forall b, tb y b = Nat.leb n b && tb x (b - n) && Nat.ltb b 64) -> Q y) -> wp (shl x n) Q.
Proof.
  intros x n Q Hn H. unfold shl. destruct (Nat.ltb_spec n 64); [|lia]. apply H.
  intros b. rewrite tb_land, tb_shl, tb_ffff. reflexivity.
Qed.
Lemma wp_shr : forall x n (Q : N -> Prop), n < 64 ->
  (forall y, (forall b, tb y b = tb x (b + n)) -> Q y) -> wp (shr x n) Q.
Proof.
  intros x n Q Hn H. unfold shr. destruct (Nat.ltb_spec n 64); [|lia]. apply H. intros b. apply tb_shr.
Qed.

Lemma tb_left : forall n b, n <= 64 -> tb (left_bitmask n) b = Nat.ltb b (if Nat.eqb (n mod 64) 0 then 64 else n).
Proof.
  intros n b Hn. unfold left_bitmask. rewrite tb_shr, tb_ffff.
  destruct (Nat.eqb_spec (n mod 64) 0); destruct (Nat.ltb_spec (b + (64 - n) mod 64) 64);
    symmetry; [apply Nat.ltb_lt|apply Nat.ltb_ge|apply Nat.ltb_lt|apply Nat.ltb_ge]; lia.
Qed.
Lemma wp_right : forall o (Q : N -> Prop), o < 64 ->
  (forall y, (forall b, tb y b = Nat.leb o b && Nat.ltb b 64) -> Q y) -> wp (right_bitmask (64 - o)) Q.
Proof.
  intros o Q Ho H. unfold right_bitmask. apply wp_shl; [lia|]. intros y Hy. apply H.
  intros b. rewrite Hy, tb_ffff. destruct (Nat.leb_spec (64 - (64 - o)) b), (Nat.leb_spec o b); try lia; try reflexivity.
  destruct (Nat.ltb_spec (b - (64 - (64 - o))) 64), (Nat.ltb_spec b 64); try lia; reflexivity.
Qed.

(** ** Rows *)

Definition rw (row : list N) (k : nat) : N := nth k row 0%N.
Definition wfr (C : nat) (row : list N) : Prop :=
  length row = wwidth C /\ forall k b, tb (rw row k) b = true -> b < 64 /\ 64 * k + b < C.

Lemma rowbit_rw : forall row k b, b < 64 -> rowbit row (64 * k + b) = tb (rw row k) b.
Proof.
  intros row k b Hb. unfold rowbit, rw, tb.
  replace ((64 * k + b) / 64) with k by lia. replace ((64 * k + b) mod 64) with b by lia. reflexivity.
Qed.
Lemma rowbit_tb : forall row j, rowbit row j = tb (rw row (j / 64)) (j mod 64).
Proof. reflexivity. Qed.

Lemma wfr_valid : forall C row, validrow C row <-> wfr C row.
Proof.
  intros C row. unfold validrow, wfr, wwidth. split.
  - intros (HL & Hw & Hz). split; [exact HL|]. intros k b H.
    destruct (Nat.lt_ge_cases k (length row)) as [Hk|Hk].
    + assert (Hb : b < 64).
      { destruct (Nat.lt_ge_cases b 64); auto. exfalso.
        assert (E := Hw (rw row k) ltac:(apply nth_In; exact Hk)). change (2 ^ 64)%N with (2 ^ N.of_nat 64)%N in E.
        rewrite tb_lt in E. rewrite E in H by lia. discriminate. }
      split; auto. destruct (Nat.lt_ge_cases (64 * k + b) C); auto. exfalso.
      assert (E := Hz (64 * k + b) ltac:(lia)). rewrite rowbit_rw in E by exact Hb. congruence.
    + unfold rw in H. rewrite nth_overflow in H by lia. rewrite tb_0 in H. discriminate.
  - intros (HL & H). split; [exact HL|]. split.
    + intros w Hw. destruct (In_nth _ _ 0%N Hw) as (k & Hk & E). change (2 ^ 64)%N with (2 ^ N.of_nat 64)%N.
      apply tb_lt. intros b Hb. destruct (tb w b) eqn:Eb; auto. rewrite <- E in Eb. apply H in Eb. lia.
    + intros j Hj. rewrite rowbit_tb. destruct (tb _ _) eqn:E; auto. apply H in E. lia.
Qed.

Lemma wfr_zero : forall C row j, wfr C row -> C <= j -> rowbit row j = false.
Proof. intros C row j H. apply wfr_valid in H. apply H. Qed.

Lemma rw_upd : forall row i x k, i < length row -> rw (upd row i x) k = if Nat.eqb k i then x else rw row k.
Proof. intros. apply nth_upd. assumption. Qed.

Lemma for_up_none : forall St a b (body : nat -> St -> res St) s, b <= a -> for_up a b body s = Ok s.
Proof. intros. unfold for_up. replace (b - a) with 0 by lia. reflexivity. Qed.

Lemma wp_row_loop : forall lo hi f g row (Q : list N -> Prop), hi <= length row ->
  (forall i, lo <= i -> i < hi -> wp (f i (rw row i)) (fun y => y = g i (rw row i))) ->
  (forall row', length row' = length row ->
     (forall k, rw row' k = if Nat.leb lo k && Nat.ltb k hi then g k (rw row k) else rw row k) -> Q row') ->
  wp (row_loop lo hi f row) Q.
Proof.
  intros lo hi f g row Q HL Hf HQ. unfold row_loop.
  destruct (Nat.le_gt_cases hi lo) as [Hle|Hlt].
  - rewrite for_up_none by exact Hle. apply HQ; auto. intros k.
    destruct (Nat.leb_spec lo k), (Nat.ltb_spec k hi); try lia; reflexivity.
  - apply (wp_for_up _ (fun i r => length r = length row /\
      forall k, rw r k = if Nat.leb lo k && Nat.ltb k i then g k (rw row k) else rw row k)); [lia| | |].
    + split; auto. intros k. destruct (Nat.leb_spec lo k), (Nat.ltb_spec k lo); try lia; reflexivity.
    + intros i r H1 H2 [HLr Hr]. apply wp_bind, (wp_aget _ _ _ 0%N); [lia|].
      fold (rw r i). rewrite Hr. replace (Nat.ltb i i) with false by (symmetry; apply Nat.ltb_ge; lia).
      rewrite andb_false_r. apply wp_bind. eapply wp_mono; [apply Hf; lia|]. intros y ->.
      apply wp_aset; [lia|]. split; [rewrite length_upd; exact HLr|].
      intros k. rewrite rw_upd by lia. rewrite Hr.
      destruct (Nat.eqb_spec k i) as [->|]; [destruct (Nat.leb_spec lo i), (Nat.ltb_spec i (S i)); try lia; reflexivity|].
      destruct (Nat.leb_spec lo k), (Nat.ltb_spec k i), (Nat.ltb_spec k (S i)); try lia; reflexivity.
    + intros r [H1 H2]. apply HQ; auto.
Qed.

(** ** Matrices *)

Definition okm (R C : nat) (M : mzd) : Prop :=
  mnrows M = R /\ mncols M = C /\ length (mrows M) = R /\ forall i, i < R -> wfr C (nth i (mrows M) []).

Lemma okm_valid : forall R C M, valid R C M <-> okm R C M.
Proof.
  intros R C M. unfold valid, okm. split.
  - intros (H1 & H2 & H3 & H4). refine (conj H1 (conj H2 (conj H3 _))). intros i Hi.
    apply wfr_valid, H4, nth_In. lia.
  - intros (H1 & H2 & H3 & H4). refine (conj H1 (conj H2 (conj H3 _))). intros row Hrow.
    destruct (In_nth _ _ [] Hrow) as (i & Hi & <-). apply wfr_valid, H4. lia.
Qed.

Lemma okm_width : forall R C M, okm R C M -> mwidth M = wwidth C.
Proof. intros R C M (_ & H & _). unfold mwidth. rewrite H. reflexivity. Qed.
Lemma okm_row : forall R C M i, okm R C M -> i < R -> length (nth i (mrows M) []) = wwidth C.
Proof. intros R C M i (_ & _ & _ & H) Hi. apply H. exact Hi. Qed.
Lemma wwidth_pos : forall C, 0 < C -> 0 < wwidth C.
Proof. intros. unfold wwidth. lia. Qed.
Lemma wwidth_lt : forall C j, j < C -> j / 64 < wwidth C.
Proof. intros. unfold wwidth. lia. Qed.

Lemma bitat_zero : forall R C M i j, okm R C M -> i < R -> C <= j -> bitat M i j = false.
Proof. intros R C M i j (_ & _ & _ & H) Hi Hj. apply (wfr_zero C); auto. Qed.

Lemma okm_upd : forall R C M i row, okm R C M -> i < R -> wfr C row ->
  okm R C (with_rows M (upd (mrows M) i row)).
Proof.
  intros R C M i row (H1 & H2 & H3 & H4) Hi Hr. unfold okm. simpl.
  refine (conj H1 (conj H2 (conj _ _))); [rewrite length_upd; exact H3|].
  intros k Hk. rewrite nth_upd by lia. destruct (Nat.eqb_spec k i); auto.
Qed.
Lemma bitat_upd : forall R C M i row, okm R C M -> i < R -> forall x j,
  bitat (with_rows M (upd (mrows M) i row)) x j = if Nat.eqb x i then rowbit row j else bitat M x j.
Proof.
  intros R C M i row (H1 & H2 & H3 & H4) Hi x j. unfold bitat. simpl. rewrite nth_upd by lia.
  destruct (Nat.eqb_spec x i); reflexivity.
Qed.

Lemma wp_aget_row : forall R C M i (Q : list N -> Prop), okm R C M -> i < R ->
  Q (nth i (mrows M) []) -> wp (aget (mrows M) i) Q.
Proof. intros R C M i Q (_ & _ & H & _) Hi HQ. apply (wp_aget _ _ _ []); [lia|exact HQ]. Qed.

Lemma wp_wget : forall R C M i k (Q : N -> Prop), okm R C M -> i < R -> k < wwidth C ->
  Q (rw (nth i (mrows M) []) k) -> wp (wget M i k) Q.
Proof.
  intros R C M i k Q HM Hi Hk HQ. unfold wget. apply wp_bind, (wp_aget_row R C); auto.
  apply (wp_aget _ _ _ 0%N); [rewrite (okm_row R C M i HM Hi); exact Hk|exact HQ].
Qed.

Lemma wp_read_bit : forall R C M i j (Q : bool -> Prop), okm R C M -> i < R -> j < C ->
  Q (bitat M i j) -> wp (mzd_read_bit M i j) Q.
Proof.
  intros R C M i j Q HM Hi Hj HQ. unfold mzd_read_bit. apply wp_bind, (wp_wget R C); auto using wwidth_lt.
  apply wp_ok. rewrite get_bit_tb. exact HQ.
Qed.

Lemma tb_high : forall R C M b, okm R C M -> 0 < C ->
  tb (high_bitmask M) b = Nat.ltb b 64 && Nat.ltb (64 * (wwidth C - 1) + b) C.
Proof.
  intros R C M b (_ & HC & _) H. unfold high_bitmask. rewrite HC, tb_left by lia.
  unfold wwidth. destruct (Nat.eqb_spec ((C mod 64) mod 64) 0).
  - destruct (Nat.ltb_spec b 64), (Nat.ltb_spec (64 * ((C + 63) / 64 - 1) + b) C); try lia; reflexivity.
  - destruct (Nat.ltb_spec b (C mod 64)), (Nat.ltb_spec b 64), (Nat.ltb_spec (64 * ((C + 63) / 64 - 1) + b) C); try lia; reflexivity.
Qed.

(** Bits of word k of a row of an okm matrix *)
Lemma wfr_tb : forall C row k b, wfr C row -> (b < 64 -> 64 * k + b < C -> False) -> tb (rw row k) b = false.
Proof. intros C row k b [_ H] HF. destruct (tb (rw row k) b) eqn:E; auto. destruct (H _ _ E). exfalso. auto. Qed.

Lemma wp_row_swap : forall R C M a b (Q : mzd -> Prop), okm R C M -> 0 < C -> a < R -> b < R ->
  (forall M', okm R C M' -> (forall i j, bitat M' i j = rswap a b (bitat M) i j) -> Q M') ->
  wp (mzd_row_swap M a b) Q.
Proof.
  intros R C M a b Q HM HC Ha Hb HQ. unfold mzd_row_swap.
  assert (HW := okm_width R C M HM). assert (HWp := wwidth_pos C HC).
  destruct (Nat.eqb_spec a b) as [<-|Hne]; simpl.
  { apply wp_ok, HQ; auto. intros i j. unfold rswap. destruct (Nat.eqb_spec i a); subst; auto. }
  rewrite HW. destruct (Nat.eqb_spec (wwidth C) 0); [lia|].
  assert (La := okm_row R C M a HM Ha). assert (Lb := okm_row R C M b HM Hb).
  apply wp_bind, (wp_aget_row R C); auto. apply wp_bind, (wp_aget_row R C); auto.
  assert (Wa : wfr C (nth a (mrows M) [])) by (apply HM; auto).
  assert (Wb : wfr C (nth b (mrows M) [])) by (apply HM; auto).
  set (ra := nth a (mrows M) []) in *. set (rb := nth b (mrows M) []) in *.
  apply wp_bind. apply (wp_row_loop _ _ _ (fun i _ => rw rb i)); [lia| |].
  { intros i _ Hi. apply (wp_aget _ _ _ 0%N); [lia|reflexivity]. }
  intros a1 La1 Ea1. apply wp_bind. apply (wp_row_loop _ _ _ (fun i _ => rw ra i)); [lia| |].
  { intros i _ Hi. apply (wp_aget _ _ _ 0%N); [lia|reflexivity]. }
  intros b1 Lb1 Eb1.
  apply wp_bind, (wp_aget _ _ _ 0%N); [lia|]. apply wp_bind, (wp_aget _ _ _ 0%N); [lia|].
  fold (rw a1 (wwidth C - 1)) (rw b1 (wwidth C - 1)).
  apply wp_bind, wp_aset; [lia|]. apply wp_bind, wp_aset; [lia|].
  assert (Fa : forall k, rw (upd a1 (wwidth C - 1) (N.lxor (rw a1 (wwidth C - 1)) (N.land (N.lxor (rw a1 (wwidth C - 1)) (rw b1 (wwidth C - 1))) (high_bitmask M)))) k = rw rb k).
  { intros k. rewrite rw_upd by lia. destruct (Nat.eqb_spec k (wwidth C - 1)) as [->|Hk].
    - apply tb_inj. intros t. rewrite tb_lxor, tb_land, tb_lxor, (tb_high R C) by auto. rewrite Ea1, Eb1.
      replace (Nat.ltb (wwidth C - 1) (wwidth C - 1)) with false by (symmetry; apply Nat.ltb_ge; lia). rewrite !andb_false_r.
      destruct (Nat.ltb_spec t 64), (Nat.ltb_spec (64 * (wwidth C - 1) + t) C); cbn [andb];
        try (rewrite (wfr_tb C rb), (wfr_tb C ra) by (auto; lia); reflexivity).
      destruct (tb (rw ra (wwidth C - 1)) t), (tb (rw rb (wwidth C - 1)) t); reflexivity.
    - rewrite Ea1. cbn [Nat.leb andb]. destruct (Nat.ltb_spec k (wwidth C - 1)); auto. unfold rw. rewrite !nth_overflow by lia. reflexivity. }
  assert (Fb : forall k, rw (upd b1 (wwidth C - 1) (N.lxor (rw b1 (wwidth C - 1)) (N.land (N.lxor (rw a1 (wwidth C - 1)) (rw b1 (wwidth C - 1))) (high_bitmask M)))) k = rw ra k).
  { intros k. rewrite rw_upd by lia. destruct (Nat.eqb_spec k (wwidth C - 1)) as [->|Hk].
    - apply tb_inj. intros t. rewrite tb_lxor, tb_land, tb_lxor, (tb_high R C) by auto. rewrite Ea1, Eb1.
      replace (Nat.ltb (wwidth C - 1) (wwidth C - 1)) with false by (symmetry; apply Nat.ltb_ge; lia). rewrite !andb_false_r.
      destruct (Nat.ltb_spec t 64), (Nat.ltb_spec (64 * (wwidth C - 1) + t) C); cbn [andb];
        try (rewrite (wfr_tb C rb), (wfr_tb C ra) by (auto; lia); reflexivity).
      destruct (tb (rw ra (wwidth C - 1)) t), (tb (rw rb (wwidth C - 1)) t); reflexivity.
    - rewrite Eb1. cbn [Nat.leb andb]. destruct (Nat.ltb_spec k (wwidth C - 1)); auto. unfold rw. rewrite !nth_overflow by lia. reflexivity. }
  set (a2 := upd a1 _ _) in *. set (b2 := upd b1 _ _) in *.
  assert (L2a : length a2 = wwidth C) by (unfold a2; rewrite length_upd; lia).
  assert (L2b : length b2 = wwidth C) by (unfold b2; rewrite length_upd; lia).
  assert (HL := proj1 (proj2 (proj2 HM))).
  apply wp_bind, wp_aset; [lia|]. apply wp_bind, wp_aset; [rewrite length_upd; lia|]. apply wp_ok.
  assert (V1 : okm R C (with_rows M (upd (mrows M) a a2))).
  { apply okm_upd; auto. split; [exact L2a|]. intros k t. rewrite Fa. apply Wb. }
  change (with_rows M (upd (upd (mrows M) a a2) b b2))
    with (with_rows (with_rows M (upd (mrows M) a a2)) (upd (mrows (with_rows M (upd (mrows M) a a2))) b b2)).
  apply HQ.
  - apply okm_upd; auto. split; [exact L2b|]. intros k t. rewrite Fb. apply Wa.
  - intros i j. rewrite (bitat_upd R C) by auto. rewrite (bitat_upd R C) by auto. unfold rswap, bitat.
    destruct (Nat.eqb_spec i b) as [->|].
    + destruct (Nat.eqb_spec b a); [lia|]. fold ra. rewrite !rowbit_tb, Fb. reflexivity.
    + destruct (Nat.eqb_spec i a) as [->|]; auto. fold rb. rewrite !rowbit_tb, Fa. reflexivity.
Qed.

Lemma wp_row_add : forall R C M d s c (Q : mzd -> Prop), okm R C M -> d < R -> s < R -> c < C ->
  (forall M', okm R C M' -> (forall i j, bitat M' i j =
     if Nat.eqb i d && Nat.leb c j then xorb (bitat M d j) (bitat M s j) else bitat M i j) -> Q M') ->
  wp (mzd_row_add_offset M d s c) Q.
Proof.
  intros R C M d s c Q HM Hd Hs Hc HQ. unfold mzd_row_add_offset.
  assert (HW := okm_width R C M HM). rewrite HW.
  assert (Ld := okm_row R C M d HM Hd). assert (Ls := okm_row R C M s HM Hs).
  assert (Wd : wfr C (nth d (mrows M) [])) by (apply HM; auto).
  assert (Ws : wfr C (nth s (mrows M) [])) by (apply HM; auto).
  apply wp_bind, (wp_aget_row R C); auto. apply wp_bind, (wp_aget_row R C); auto.
  set (rd := nth d (mrows M) []) in *. set (rs := nth s (mrows M) []) in *.
  assert (Hsb := wwidth_lt C c Hc).
  apply wp_bind. apply wp_right; [lia|]. intros mb Hmb.
  apply wp_bind, (wp_aget _ _ _ 0%N); [lia|]. apply wp_bind, (wp_aget _ _ _ 0%N); [lia|].
  fold (rw rd (c / 64)) (rw rs (c / 64)).
  apply wp_bind, wp_aset; [lia|].
  apply wp_bind. apply (wp_row_loop _ _ _ (fun i x => N.lxor x (rw rs i))); [rewrite length_upd; lia| |].
  { intros i H1 H2. apply wp_bind, (wp_aget _ _ _ 0%N); [lia|]. reflexivity. }
  intros r1 L1 E1. rewrite length_upd in L1.
  apply wp_bind, (wp_aget _ _ _ 0%N); [lia|]. apply wp_bind, (wp_aget _ _ _ 0%N); [lia|].
  fold (rw r1 (wwidth C - 1)) (rw rs (wwidth C - 1)).
  apply wp_bind, wp_aset; [lia|].
  set (r2 := upd r1 _ _).
  assert (L2 : length r2 = wwidth C) by (unfold r2; rewrite length_upd; lia).
  assert (B2 : forall k b, tb (rw r2 k) b = xorb (tb (rw rd k) b) (Nat.leb c (64 * k + b) && tb (rw rs k) b)).
  { intros k b. unfold r2. rewrite rw_upd by lia.
    assert (Z : N.land (rw rs (wwidth C - 1)) (high_bitmask M) = rw rs (wwidth C - 1)).
    { apply tb_inj. intros t. rewrite tb_land, (tb_high R C) by (auto; lia).
      destruct (tb (rw rs (wwidth C - 1)) t) eqn:E; auto. apply Ws in E. cbn [andb].
      destruct (Nat.ltb_spec t 64), (Nat.ltb_spec (64 * (wwidth C - 1) + t) C); try lia; reflexivity. }
    assert (Z2 : N.ldiff (rw rs (wwidth C - 1)) (high_bitmask M) = 0%N).
    { apply tb_inj. intros t. rewrite tb_ldiff, tb_0, <- Z, tb_land. destruct (tb _ t), (tb (high_bitmask M) t); reflexivity. }
    rewrite Z2, N.lxor_0_r.
    assert (G : tb (rw r1 k) b = xorb (tb (rw rd k) b) (Nat.leb c (64 * k + b) && tb (rw rs k) b)).
    { rewrite E1. rewrite rw_upd by lia.
      destruct (Nat.eqb_spec k (c / 64)) as [->|Hk].
      - replace (Nat.leb (c / 64 + 1) (c / 64)) with false by (symmetry; apply Nat.leb_gt; lia). cbn [andb].
        rewrite tb_lxor, tb_land, Hmb. f_equal. destruct (tb (rw rs (c / 64)) b) eqn:Eb.
        + apply Ws in Eb. destruct (Nat.leb_spec (c mod 64) b), (Nat.ltb_spec b 64), (Nat.leb_spec c (64 * (c / 64) + b)); try lia; reflexivity.
        + rewrite andb_false_r. reflexivity.
      - destruct (tb (rw rs k) b) eqn:Eb.
        + assert (Eb' := Eb). apply Ws in Eb. destruct (Nat.leb_spec (c / 64 + 1) k).
          * destruct (Nat.ltb_spec k (wwidth C)); [|unfold wwidth in *; lia]. cbn [andb]. rewrite tb_lxor, Eb'.
            destruct (Nat.leb_spec c (64 * k + b)); [|lia]. reflexivity.
          * cbn [andb]. destruct (Nat.leb_spec c (64 * k + b)); [lia|]. cbn [andb]. rewrite xorb_false_r. reflexivity.
        + rewrite andb_false_r, xorb_false_r. destruct (_ && _); auto. rewrite tb_lxor, Eb. apply xorb_false_r. }
    destruct (Nat.eqb_spec k (wwidth C - 1)) as [->|]; exact G. }
  assert (HL := proj1 (proj2 (proj2 HM))).
  apply wp_bind, wp_aset; [lia|]. apply wp_ok. apply HQ.
  - apply okm_upd; auto. split; [exact L2|]. intros k b. rewrite B2.
    destruct (tb (rw rd k) b) eqn:E1'; [intros _; apply Wd; exact E1'|].
    destruct (tb (rw rs k) b) eqn:E2'; [intros _; apply Ws; exact E2'|]. rewrite andb_false_r. discriminate.
  - intros i j. rewrite (bitat_upd R C) by auto. destruct (Nat.eqb_spec i d) as [->|]; auto. cbn [andb].
    rewrite rowbit_tb, B2. replace (64 * (j / 64) + j mod 64) with j by lia. unfold bitat. fold rd rs.
    rewrite !rowbit_tb. destruct (Nat.leb c j); cbn [andb]; auto. apply xorb_false_r.
Qed.

Lemma tb_write : forall w s (x : bool) b, s < 64 ->
  tb (write_bit w s (if x then 1 else 0)) b = if Nat.eqb b s then x else tb w b.
Proof.
  intros w s x b Hs. unfold write_bit. rewrite tb_lor, tb_ldiff, tb_land, tb_bit.
  destruct x.
  - change (Z.to_N (- (1) mod 2 ^ 64)) with ffff. rewrite tb_ffff. destruct (Nat.eqb_spec b s).
    + subst. destruct (Nat.ltb_spec s 64); [|lia]. rewrite andb_false_r. reflexivity.
    + rewrite andb_false_r, andb_true_r, orb_false_r. reflexivity.
  - change (Z.to_N (- 0 mod 2 ^ 64)) with 0%N. rewrite tb_0. destruct (Nat.eqb_spec b s).
    + rewrite andb_false_r. reflexivity.
    + rewrite andb_true_r, orb_false_r. reflexivity.
Qed.

Lemma wp_wset : forall R C M i k x (Q : mzd -> Prop), okm R C M -> i < R -> k < wwidth C ->
  (forall b, tb x b = true -> b < 64 /\ 64 * k + b < C) ->
  (forall M', okm R C M' -> (forall a j, bitat M' a j =
     if Nat.eqb a i && Nat.eqb (j / 64) k then tb x (j mod 64) else bitat M a j) -> Q M') ->
  wp (wset M i k x) Q.
Proof.
  intros R C M i k x Q HM Hi Hk Hx HQ. unfold wset. apply wp_bind, (wp_aget_row R C); auto.
  assert (L := okm_row R C M i HM Hi). assert (W : wfr C (nth i (mrows M) [])) by (apply HM; auto).
  apply wp_bind, wp_aset; [lia|]. assert (HL := proj1 (proj2 (proj2 HM))).
  apply wp_bind, wp_aset; [lia|]. apply wp_ok, HQ.
  - apply okm_upd; auto. split; [rewrite length_upd; exact L|]. intros k' b. rewrite rw_upd by lia.
    destruct (Nat.eqb_spec k' k) as [->|]; [apply Hx|apply W].
  - intros a j. rewrite (bitat_upd R C) by auto. destruct (Nat.eqb_spec a i) as [->|]; auto. cbn [andb].
    rewrite rowbit_tb, rw_upd by lia. destruct (Nat.eqb_spec (j / 64) k); reflexivity.
Qed.

Lemma wp_write_bit : forall R C M i j (x : bool) (Q : mzd -> Prop), okm R C M -> i < R -> j < C ->
  (forall M', okm R C M' -> (forall a b, bitat M' a b =
     if Nat.eqb a i && Nat.eqb b j then x else bitat M a b) -> Q M') ->
  wp (mzd_write_bit M i j (if x then 1 else 0)) Q.
Proof.
  intros R C M i j x Q HM Hi Hj HQ. unfold mzd_write_bit.
  assert (Hk := wwidth_lt C j Hj). assert (W : wfr C (nth i (mrows M) [])) by (apply HM; auto).
  apply wp_bind, (wp_wget R C); auto. apply (wp_wset R C); auto.
  - intros b. rewrite tb_write by lia. destruct (Nat.eqb_spec b (j mod 64)) as [->|]; [lia|apply W].
  - intros M' HM' HB. apply HQ; auto. intros a b. rewrite HB. destruct (Nat.eqb_spec a i) as [->|]; auto. cbn [andb].
    rewrite tb_write by lia. destruct (Nat.eqb_spec (b / 64) (j / 64)) as [E|E].
    + destruct (Nat.eqb_spec (b mod 64) (j mod 64)), (Nat.eqb_spec b j); try lia; auto.
      rewrite <- E. reflexivity.
    + destruct (Nat.eqb_spec b j); [subst; lia|reflexivity].
Qed.

Lemma wp_read_bits : forall R C M i y n (Q : N -> Prop), okm R C M -> i < R -> 1 <= n -> n <= 64 -> y + n <= C ->
  (forall v, (forall l, tb v l = Nat.ltb l n && bitat M i (y + l)) -> Q v) ->
  wp (mzd_read_bits M i y n) Q.
Proof.
  intros R C M i y n Q HM Hi Hn1 Hn2 Hy HQ. unfold mzd_read_bits.
  assert (W : wfr C (nth i (mrows M) [])) by (apply HM; auto).
  assert (Hk := wwidth_lt C y ltac:(lia)). assert (Hk2 := wwidth_lt C (y + n - 1) ltac:(lia)).
  assert (W64 : forall k b, 64 <= b -> tb (rw (nth i (mrows M) []) k) b = false).
  { intros k b Hb. apply (wfr_tb C); auto. lia. }
  apply wp_bind. destruct (Nat.leb_spec (y mod 64 + n) 64) as [H|H].
  - apply wp_bind, (wp_wget R C); auto. apply wp_shl; [lia|]. intros t Ht. apply wp_shr; [lia|].
    intros v Hv. apply HQ. intros l. rewrite Hv, Ht. unfold bitat. rewrite rowbit_tb.
    destruct (Nat.leb_spec (64 - (y mod 64 + n)) (l + (64 - n))); [|lia].
    destruct (Nat.ltb_spec (l + (64 - n)) 64), (Nat.ltb_spec l n); try lia; cbn [andb];
      rewrite ?andb_true_r, ?andb_false_r; auto.
    replace ((y + l) / 64) with (y / 64) by lia. f_equal. lia.
  - apply wp_bind, (wp_wget R C); auto; [lia|]. apply wp_bind, (wp_wget R C); auto.
    apply wp_bind. apply wp_shl; [lia|]. intros hi Hhi. apply wp_bind. apply wp_shr; [lia|]. intros lo Hlo.
    apply wp_ok. apply wp_shr; [lia|]. intros v Hv. apply HQ. intros l. rewrite Hv, tb_lor, Hhi, Hlo.
    unfold bitat. rewrite rowbit_tb.
    destruct (Nat.ltb_spec l n) as [Hl|Hl]; cbn [andb].
    + destruct (Nat.ltb_spec (l + (64 - n)) 64); [|lia]. rewrite andb_true_r.
      destruct (Nat.leb_spec (64 - (y mod 64 + n - 64)) (l + (64 - n))); cbn [andb].
      * rewrite (W64 (y / 64)) by lia. rewrite orb_false_r. replace ((y + l) / 64) with (y / 64 + 1) by lia. f_equal. lia.
      * cbn [orb]. replace ((y + l) / 64) with (y / 64) by lia. f_equal. lia.
    + destruct (Nat.ltb_spec (l + (64 - n)) 64); [lia|]. rewrite andb_false_r. apply W64. lia.
Qed.

Lemma nth_repeat_in : forall A (a d : A) n i, i < n -> nth i (repeat a n) d = a.
Proof. intros A a d n. induction n as [|n IH]; intros [|i] Hi; simpl; auto; try lia. apply IH. lia. Qed.

Lemma rw_repeat : forall n k, rw (repeat 0%N n) k = 0%N.
Proof.
  intros n k. unfold rw. destruct (Nat.lt_ge_cases k n); [apply nth_repeat_in; auto|].
  apply nth_overflow. rewrite repeat_length. exact H.
Qed.
Lemma wfr_zeros : forall C, wfr C (repeat 0%N (wwidth C)).
Proof. intros C. split; [apply repeat_length|]. intros k b. rewrite rw_repeat, tb_0. discriminate. Qed.

Lemma init_ok : forall R C, okm R C (mzd_init R C) /\ forall i j, bitat (mzd_init R C) i j = false.
Proof.
  intros R C. split.
  - refine (conj eq_refl (conj eq_refl (conj (repeat_length _ _) _))). intros i Hi. simpl.
    rewrite nth_repeat_in by exact Hi. apply wfr_zeros.
  - intros i j. unfold bitat. simpl. rewrite rowbit_tb. destruct (Nat.lt_ge_cases i R).
    + rewrite nth_repeat_in by auto. rewrite rw_repeat. apply tb_0.
    + rewrite nth_overflow by (rewrite repeat_length; auto). unfold rw. destruct (j / 64); apply tb_0.
Qed.

Lemma wp_copy_into : forall N0 off pm nr w P poff (Q : list (list N) -> Prop), 0 < w ->
  nr <= length N0 -> nr <= length P ->
  (forall i, i < nr -> off + w <= length (nth i N0 []) /\ poff + w <= length (nth i P [])) ->
  (forall rs, length rs = length N0 ->
     (forall i, i < nr -> length (nth i rs []) = length (nth i N0 []) /\
        forall k b, tb (rw (nth i rs []) k) b =
          if Nat.leb off k && Nat.ltb k (off + w) && (Nat.ltb k (off + (w - 1)) || tb pm b)
          then tb (rw (nth i P []) (k - off + poff)) b else tb (rw (nth i N0 []) k) b) ->
     (forall i, nr <= i -> nth i rs [] = nth i N0 []) -> Q rs) ->
  wp (mzd_copy_into N0 off pm nr w P poff) Q.
Proof.
  intros N0 off pm nr w P poff Q Hw HN HP HL HQ. unfold mzd_copy_into.
  apply (wp_for_up _ (fun t rs => length rs = length N0 /\
     (forall i, i < t -> length (nth i rs []) = length (nth i N0 []) /\
        forall k b, tb (rw (nth i rs []) k) b =
          if Nat.leb off k && Nat.ltb k (off + w) && (Nat.ltb k (off + (w - 1)) || tb pm b)
          then tb (rw (nth i P []) (k - off + poff)) b else tb (rw (nth i N0 []) k) b) /\
     (forall i, t <= i -> nth i rs [] = nth i N0 []))); [lia| | |].
  - refine (conj eq_refl (conj _ _)); [intros; lia|auto].
  - intros t rs _ Ht (H1 & H2 & H3). destruct (HL t Ht) as [L1 L2].
    apply wp_bind, (wp_aget _ _ _ []); [lia|]. apply wp_bind, (wp_aget _ _ _ []); [lia|].
    rewrite H3 by lia.
    apply wp_bind. apply (wp_row_loop _ _ _ (fun j _ => rw (nth t P []) (j - off + poff))); [lia| |].
    { intros j Hj1 Hj2. apply (wp_aget _ _ _ 0%N); [lia|reflexivity]. }
    intros n Ln En. apply wp_bind, (wp_aget _ _ _ 0%N); [lia|]. apply wp_bind, (wp_aget _ _ _ 0%N); [lia|].
    fold (rw n (off + (w - 1))) (rw (nth t P []) (poff + (w - 1))).
    apply wp_bind, wp_aset; [lia|]. apply wp_aset; [lia|].
    refine (conj _ (conj _ _)).
    + rewrite length_upd. exact H1.
    + intros i Hi. rewrite nth_upd by lia. destruct (Nat.eqb_spec i t) as [->|]; [|apply H2; lia].
      split; [rewrite length_upd; exact Ln|]. intros k b. rewrite rw_upd by lia.
      destruct (Nat.eqb_spec k (off + (w - 1))) as [->|Hk].
      * rewrite tb_lor, tb_ldiff, tb_land, En.
        replace (Nat.ltb (off + (w - 1)) (off + (w - 1))) with false by (symmetry; apply Nat.ltb_ge; lia).
        replace (Nat.ltb (off + (w - 1)) (off + w)) with true by (symmetry; apply Nat.ltb_lt; lia).
        replace (Nat.leb off (off + (w - 1))) with true by (symmetry; apply Nat.leb_le; lia). cbn [andb orb].
        replace (off + (w - 1) - off + poff) with (poff + (w - 1)) by lia.
        destruct (tb pm b); cbn [negb]; rewrite ?andb_true_r, ?andb_false_r, ?orb_false_r; auto.
      * rewrite En. destruct (Nat.leb_spec off k), (Nat.ltb_spec k (off + (w - 1))), (Nat.ltb_spec k (off + w)); try lia; reflexivity.
    + intros i Hi. rewrite nth_upd by lia. destruct (Nat.eqb_spec i t); [lia|]. apply H3. lia.
  - intros rs (H1 & H2 & H3). apply HQ; auto.
Qed.

(** The copied words are those of P when the mask is that of P *)
Lemma wp_copy : forall R C P (Q : mzd -> Prop), okm R C P -> 0 < C ->
  (forall M, okm R C M -> (forall i j, i < R -> bitat M i j = bitat P i j) -> Q M) -> wp (mzd_copy P) Q.
Proof.
  intros R C P Q HP HC HQ. unfold mzd_copy. destruct HP as (H1 & H2 & H3 & H4).
  assert (HP : okm R C P) by (refine (conj H1 (conj H2 (conj H3 H4)))).
  rewrite (okm_width R C P HP), H1, H2. destruct (init_ok R C) as [(I1 & I2 & I3 & I4) _].
  assert (HW := wwidth_pos C HC).
  apply wp_bind. apply wp_copy_into; [exact HW|lia|lia| |].
  { intros i Hi. rewrite (proj1 (I4 i Hi)), (proj1 (H4 i Hi)). lia. }
  intros rs L E _. apply wp_ok.
  assert (F : forall i k b, i < R -> tb (rw (nth i rs []) k) b = tb (rw (nth i (mrows P) []) k) b).
  { intros i k b Hi. destruct (E i Hi) as [_ E']. rewrite E'. cbn [Nat.leb andb]. rewrite !Nat.add_0_l.
    replace (k - 0 + 0) with k by lia. simpl mrows. rewrite nth_repeat_in by exact Hi. rewrite rw_repeat, tb_0.
    rewrite (tb_high R C) by auto.
    destruct (Nat.ltb_spec k (wwidth C)), (Nat.ltb_spec k (wwidth C - 1)); try lia; cbn [andb orb]; auto.
    - destruct (Nat.ltb_spec b 64), (Nat.ltb_spec (64 * (wwidth C - 1) + b) C); cbn [andb]; auto;
        symmetry; apply (wfr_tb C); auto; intros; replace k with (wwidth C - 1) in * by lia; lia.
    - symmetry. apply (wfr_tb C); auto. unfold wwidth in *. lia. }
  apply HQ.
  - refine (conj eq_refl (conj eq_refl (conj _ _))); [simpl; rewrite L; exact I3|].
    intros i Hi. destruct (E i Hi) as [E1 _]. split; [simpl; rewrite E1; apply I4; exact Hi|].
    intros k b. simpl. rewrite F by exact Hi. apply H4. exact Hi.
  - intros i j Hi. unfold bitat. simpl. rewrite !rowbit_tb. apply F. exact Hi.
Qed.
