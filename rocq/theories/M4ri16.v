(** The cubic products: mzd_mul_naive, ModelM4ri2.v *)
From Coq Require Import Arith NArith ZArith List Bool Lia ZifyNat.
From Verif Require Import Base Spec LinAlg ModelM4ri SpecM4ri M4ri1 M4riD ModelM4ri2 M4ri9 M4ri10 M4ri11 M4ri14 M4ri15.
Import ListNotations.
Local Open Scope nat_scope.
#[local] Ltac Zify.zify_post_hook ::= Z.to_euclidean_division_equations.

(** Loops that replace one row after the other *)
Lemma wp_rows_loop : forall R C M body (spec : fmat) (Q : list (list N) -> Prop), okm R C M ->
  (forall i rs, i < R -> length rs = R -> nth i rs [] = nth i (mrows M) [] ->
     wp (body i rs) (fun rs' => exists row, rs' = upd rs i row /\ wfr C row /\ forall j, rowbit row j = spec i j)) ->
  (forall rs, okm R C (with_rows M rs) -> (forall i j, i < R -> rowbit (nth i rs []) j = spec i j) -> Q rs) ->
  wp (for_up 0 R body (mrows M)) Q.
Proof.
  intros R C M body spec Q HM HB HQ. pose proof HM as [Hr [Hc [HL HW]]].
  apply (wp_for_up _ (fun i rs => length rs = R /\ (forall k, i <= k -> nth k rs [] = nth k (mrows M) []) /\
    forall k, k < i -> wfr C (nth k rs []) /\ forall j, rowbit (nth k rs []) j = spec k j)); [lia| | |].
  - split; [exact HL|]. split; [reflexivity|]. intros k Hk. lia.
  - intros i rs _ Hi [HLr [Hs Hd]]. eapply wp_mono; [apply HB; [exact Hi|exact HLr|apply Hs; lia]|].
    intros rs' [row [-> [Hw Hb]]]. split; [rewrite length_upd; exact HLr|]. split.
    + intros k Hk. rewrite nth_upd by lia. destruct (Nat.eqb_spec k i); [lia|]. apply Hs. lia.
    + intros k Hk. rewrite nth_upd by lia. destruct (Nat.eqb_spec k i) as [->|]; [split; assumption|]. apply Hd. lia.
  - intros rs [HLr [_ Hd]]. apply HQ.
    + split; [exact Hr|]. split; [exact Hc|]. split; [exact HLr|]. intros i Hi. apply Hd. exact Hi.
    + intros i j Hi. apply Hd. exact Hi.
Qed.

Lemma wp_set_zero : forall R C M (Q : mzd -> Prop), okm R C M -> 0 < C ->
  (forall M', okm R C M' -> (forall i j, i < R -> bitat M' i j = false) -> Q M') -> wp (mzd_set_zero M) Q.
Proof.
  intros R C M Q HM HC HQ. unfold mzd_set_zero. rewrite (okm_width R C M HM). pose proof HM as [Hr [_ [HL HW]]].
  pose proof (wwidth_pos C HC) as Hw. cbv zeta. rewrite Hr.
  apply wp_bind, (wp_rows_loop R C M _ (fun _ _ => false)); [exact HM| |].
  - intros i rs Hi HLr Hrow. apply wp_bind, (wp_aget _ _ _ []); [lia|]. rewrite Hrow.
    set (row := nth i (mrows M) []) in *. assert (Hwr : wfr C row) by (apply HW; exact Hi).
    apply wp_bind, (wp_row_loop _ _ _ (fun _ _ => 0%N)); [destruct Hwr; lia|reflexivity|].
    intros row1 HL1 H1. pose proof (proj1 Hwr) as HLrow.
    apply wp_bind, (wp_aget _ _ _ 0%N); [lia|]. fold (rw row1 (wwidth C - 1)).
    apply wp_bind, wp_aset; [lia|]. apply wp_aset; [lia|]. eexists. split; [reflexivity|].
    assert (HZ : forall k b, tb (rw (upd row1 (wwidth C - 1) (N.ldiff (rw row1 (wwidth C - 1)) (high_bitmask M))) k) b = false).
    { intros k b. rewrite rw_upd by lia. destruct (Nat.eqb_spec k (wwidth C - 1)) as [->|Ne].
      - rewrite tb_ldiff, H1, (tb_high R C) by assumption.
        destruct (Nat.leb_spec 0 (wwidth C - 1)), (Nat.ltb_spec (wwidth C - 1) (wwidth C - 1)); try lia. cbn [andb].
        destruct (tb (rw row (wwidth C - 1)) b) eqn:E; [|reflexivity]. apply (proj2 Hwr) in E.
        destruct (Nat.ltb_spec b 64), (Nat.ltb_spec (64 * (wwidth C - 1) + b) C); lia || reflexivity.
      - rewrite H1. destruct (Nat.leb_spec 0 k), (Nat.ltb_spec k (wwidth C - 1)); try lia; cbn [andb]; [apply tb_0|].
        rewrite rw_over by lia. apply tb_0. }
    split; [split; [rewrite length_upd; lia|intros k b H; rewrite HZ in H; discriminate]|].
    intros j. rewrite rowbit_tb. apply HZ.
  - intros rs HM' Hz. apply wp_ok, HQ; [exact HM'|]. intros i j Hi. apply Hz. exact Hi.
Qed.

(** ** Inner products *)
Lemma dot_words_ok : forall a b wide (Q : N -> Prop), 1 <= wide -> wide <= length a -> wide <= length b ->
  (forall x, (forall t, tb x t = xsum wide (fun k => tb (rw a k) t && tb (rw b k) t)) -> Q x) ->
  wp (dot_words a b wide) Q.
Proof.
  intros a b wide Q Hw Ha Hb HQ. unfold dot_words.
  apply wp_bind, (wp_aget _ _ _ 0%N); [lia|]. apply wp_bind, (wp_aget _ _ _ 0%N); [lia|].
  apply (wp_for_up _ (fun i x => forall t, tb x t = xsum i (fun k => tb (rw a k) t && tb (rw b k) t))); [lia| | |].
  - intros t. rewrite tb_land. cbn [xsum]. unfold rw. destruct (_ && _); reflexivity.
  - intros i x _ Hi Hx. apply wp_bind, (wp_aget _ _ _ 0%N); [lia|]. apply wp_bind, (wp_aget _ _ _ 0%N); [lia|].
    apply wp_ok. intros t. rewrite tb_lxor, tb_land, Hx. reflexivity.
  - exact HQ.
Qed.

Lemma xsum_words : forall w f,
  xsum 64 (fun b => xsum w (fun k => f k b)) = xsum (64 * w) (fun j => f (j / 64) (j mod 64)).
Proof.
  intros w f. rewrite xsum_swap. induction w as [|w IH]; [reflexivity|].
  change (xorb (xsum w (fun j => xsum 64 (fun i => f j i))) (xsum 64 (fun i => f w i)) =
    xsum (64 * S w) (fun j => f (j / 64) (j mod 64))).
  rewrite IH. replace (64 * S w) with (64 * w + 64) by lia. rewrite xsum_add. f_equal.
  apply xsum_ext. intros k Hk. f_equal; lia.
Qed.
Lemma xsum_more : forall n m f, n <= m -> (forall k, n <= k -> k < m -> f k = false) -> xsum m f = xsum n f.
Proof.
  intros n m f H Hf. replace m with (n + (m - n)) by lia. rewrite xsum_add.
  rewrite (xsum_false (m - n)); [apply xorb_false_r|]. intros k Hk. apply Hf; lia.
Qed.
Lemma dot_parity : forall K a b x, wfr K b -> (forall t, tb x t = xsum (wwidth K) (fun k => tb (rw a k) t && tb (rw b k) t)) ->
  xsum 64 (fun t => tb x t) = xsum K (fun l => rowbit a l && rowbit b l).
Proof.
  intros K a b x Ha Hx.
  rewrite (xsum_ext 64 _ (fun t => xsum (wwidth K) (fun k => tb (rw a k) t && tb (rw b k) t))) by (intros; apply Hx).
  rewrite xsum_words. rewrite (xsum_more K).
  - apply xsum_ext. intros l Hl. rewrite !rowbit_tb. reflexivity.
  - unfold wwidth. lia.
  - intros l Hl _. rewrite (wfr_tb K b); [apply andb_false_r|exact Ha|]. intros _ H. lia.
Qed.

Section Row.
Variables (n2 K : nat) (BT : mzd) (a : list N).
Hypothesis HB : okm n2 K BT.
Hypothesis Ha : wfd K a.
Hypothesis HK : 1 <= K.
Definition entry (t : nat) : bool := xsum K (fun l => rowbit a l && bitat BT t l).

Lemma parity_loop : forall t0 n parity (Q : list N -> Prop), n <= 64 -> t0 + n <= n2 -> length parity = 64 -> w64 parity ->
  (forall parity', length parity' = 64 -> w64 parity' ->
     (forall k, k < n -> tb (parity64 parity') k = entry (t0 + k)) -> Q parity') ->
  wp (for_up 0 n (fun k parity => b <- aget (mrows BT) (t0 + k) ;; p <- dot_words a b (wwidth K) ;; aset parity k p) parity) Q.
Proof.
  intros t0 n parity Q Hn Ht HL HW HQ. pose proof HB as [_ [_ [HLB HWB]]].
  apply (wp_for_up _ (fun i pr => length pr = 64 /\ w64 pr /\
    forall k, k < i -> xsum 64 (fun b => tb (rw pr k) b) = entry (t0 + k))); [lia| | |].
  - split; [exact HL|]. split; [exact HW|]. intros k Hk. lia.
  - intros i pr _ Hi [HL1 [HW1 H1]]. apply wp_bind, (wp_aget _ _ _ []); [lia|].
    assert (HWb : wfr K (nth (t0 + i) (mrows BT) [])) by (apply HWB; lia).
    apply wp_bind, dot_words_ok; [pose proof (wwidth_pos K ltac:(lia)); lia|destruct Ha; lia|destruct HWb; lia|].
    intros x Hx. apply wp_aset; [lia|]. split; [rewrite length_upd; exact HL1|]. split.
    + intros k b Hb. rewrite rw_upd by lia. destruct (Nat.eqb_spec k i); [|apply HW1; exact Hb].
      rewrite Hx. apply xsum_false. intros k' _. rewrite (wfd_tb K a); [reflexivity|exact Ha|lia].
    + intros k Hk. rewrite rw_upd by lia. destruct (Nat.eqb_spec k i) as [->|]; [|apply H1; lia].
      rewrite (dot_parity K a _ x HWb Hx). reflexivity.
  - intros pr [HL1 [HW1 H1]]. apply HQ; [exact HL1|exact HW1|]. intros k Hk.
    destruct (parity64_ok pr HW1) as [_ HP]. rewrite HP by lia. apply H1. exact Hk.
Qed.

Lemma naive_row_ok : forall R C c parity (Q : list N * list N -> Prop), okm R n2 C -> 1 <= n2 -> wfr n2 c -> length parity = 64 -> w64 parity ->
  (forall c' parity', wfr n2 c' -> length parity' = 64 -> w64 parity' ->
     (forall j, rowbit c' j = xorb (rowbit c j) (Nat.ltb j n2 && entry j)) -> Q (c', parity')) ->
  wp (mul_naive_row C BT (wwidth K) a (c, parity)) Q.
Proof.
  intros R C c parity Q HC Hn2 Hc HL HW HQ. unfold mul_naive_row. rewrite (okm_width R n2 C HC).
  pose proof HC as [_ [HcC _]]. rewrite HcC. cbv zeta.
  pose proof (wwidth_pos n2 ltac:(lia)) as Hw.
  set (eol := if Nat.eqb (n2 mod 64) 0 then wwidth n2 else wwidth n2 - 1).
  assert (Heol : eol = n2 / 64) by (unfold eol, wwidth; destruct (Nat.eqb_spec (n2 mod 64) 0); lia).
  apply wp_bind, (wp_for_up _ (fun j '(c', pr) => wfr n2 c' /\ length pr = 64 /\ w64 pr /\
     forall k b, tb (rw c' k) b = xorb (tb (rw c k) b) (Nat.ltb k j && Nat.ltb b 64 && entry (64 * k + b)))); [lia| | |].
  - split; [exact Hc|]. split; [exact HL|]. split; [exact HW|]. intros k b. symmetry. apply xorb_false_r.
  - intros j [c1 pr1] _ Hj [Hc1 [HL1 [HW1 H1]]].
    apply wp_bind, parity_loop; [lia|lia|exact HL1|exact HW1|]. intros pr2 HL2 HW2 H2.
    assert (Hjw : j < wwidth n2) by (unfold wwidth; lia).
    apply wp_bind, (wp_aget _ _ _ 0%N); [destruct Hc1; lia|]. fold (rw c1 j).
    apply wp_bind, wp_aset; [destruct Hc1; lia|]. apply wp_ok.
    assert (HB2 : forall k b, tb (rw (upd c1 j (N.lxor (rw c1 j) (parity64 pr2))) k) b =
      xorb (tb (rw c k) b) (Nat.ltb k (S j) && Nat.ltb b 64 && entry (64 * k + b))).
    { intros k b. rewrite rw_upd by (destruct Hc1; lia). destruct (Nat.eqb_spec k j) as [->|Ne].
      - rewrite tb_lxor, H1. destruct (Nat.ltb_spec j j), (Nat.ltb_spec j (S j)); try lia. cbn [andb]. rewrite xorb_false_r. f_equal.
        destruct (Nat.ltb_spec b 64); cbn [andb]; [apply H2; assumption|].
        destruct (parity64_ok pr2 HW2) as [HP _]. apply HP. assumption.
      - rewrite H1. destruct (Nat.ltb_spec k j), (Nat.ltb_spec k (S j)); try lia; reflexivity. }
    split; [|split; [exact HL2|split; [exact HW2|exact HB2]]].
    split; [rewrite length_upd; apply Hc1|]. intros k b. rewrite HB2.
    destruct (tb (rw c k) b) eqn:E; [intros _; apply (proj2 Hc); exact E|]. cbn [xorb].
    destruct (Nat.ltb_spec k (S j)), (Nat.ltb_spec b 64); cbn [andb]; try discriminate. intros _. lia.
  - intros [c1 pr1] [Hc1 [HL1 [HW1 H1]]].
    destruct (Nat.eqb_spec eol (wwidth n2)) as [E|E].
    + apply wp_ok, HQ; auto. intros j. rewrite !rowbit_tb, H1. f_equal.
      replace (64 * (j / 64) + j mod 64) with j by lia. f_equal.
      destruct (Nat.ltb_spec (j / 64) eol), (Nat.ltb_spec (j mod 64) 64), (Nat.ltb_spec j n2); try lia; try reflexivity; unfold wwidth in E; lia.
    + assert (E2 : n2 mod 64 <> 0) by (unfold wwidth in *; lia).
      assert (Hjw : eol < wwidth n2) by (unfold wwidth in *; lia).
      apply wp_bind, parity_loop; [lia|lia|exact HL1|exact HW1|]. intros pr2 HL2 HW2 H2.
      apply wp_bind, (wp_aget _ _ _ 0%N); [destruct Hc1; lia|]. fold (rw c1 eol).
      apply wp_bind, wp_aset; [destruct Hc1; lia|]. apply wp_ok.
      assert (HB2 : forall k b, tb (rw (upd c1 eol (N.lxor (rw c1 eol) (N.land (parity64 pr2) (high_bitmask C)))) k) b =
        xorb (tb (rw c k) b) (Nat.ltb (64 * k + b) n2 && Nat.ltb b 64 && entry (64 * k + b))).
      { intros k b. rewrite rw_upd by (destruct Hc1; lia). destruct (Nat.eqb_spec k eol) as [->|Ne].
        - rewrite tb_lxor, tb_land, H1. destruct (Nat.ltb_spec eol eol); [lia|]. cbn [andb]. rewrite xorb_false_r. f_equal.
          rewrite (tb_high R n2 C) by (exact HC || lia).
          replace (wwidth n2 - 1) with eol by (unfold wwidth in *; lia).
          destruct (Nat.ltb_spec b 64), (Nat.ltb_spec (64 * eol + b) n2); cbn [andb]; rewrite ?andb_false_r; try reflexivity.
          rewrite andb_true_r. apply H2. lia.
        - rewrite H1. destruct (Nat.ltb_spec k eol) as [Hk|Hk], (Nat.ltb_spec b 64), (Nat.ltb_spec (64 * k + b) n2); cbn [andb]; try reflexivity; lia. }
      apply HQ; [|exact HL2|exact HW2|].
      * split; [rewrite length_upd; apply Hc1|]. intros k b. rewrite HB2.
        destruct (tb (rw c k) b) eqn:Eb; [intros _; apply (proj2 Hc); exact Eb|]. cbn [xorb].
        destruct (Nat.ltb_spec (64 * k + b) n2), (Nat.ltb_spec b 64); cbn [andb]; try discriminate. intros _. lia.
      * intros j. rewrite !rowbit_tb, HB2. f_equal. replace (64 * (j / 64) + j mod 64) with j by lia.
        destruct (Nat.ltb_spec (j mod 64) 64); [|lia]. rewrite andb_true_r. reflexivity.
Qed.
End Row.

(** Start of a product: what C holds before the loops *)
Definition kept (clear : bool) (C : mzd) : fmat := fun i j => negb clear && bitat C i j.
Lemma wp_start : forall clear R C M (Q : mzd -> Prop), okm R C M -> 0 < C ->
  (forall M', okm R C M' -> (forall i j, i < R -> bitat M' i j = kept clear M i j) -> Q M') ->
  wp (if clear then mzd_set_zero M else Ok M) Q.
Proof.
  intros [|] R C M Q HM HC HQ.
  - apply (wp_set_zero R C); auto.
  - apply wp_ok, HQ; [exact HM|]. reflexivity.
Qed.

Lemma mul_naive_main_ok : forall clear R K n2 C A BT (Q : mzd -> Prop), okm R n2 C -> okd R K A -> okm n2 K BT -> 1 <= K -> 1 <= n2 ->
  (forall M, okm R n2 M -> (forall i j, i < R -> j < n2 -> bitat M i j = xorb (kept clear C i j) (xsum K (fun l => bitat A i l && bitat BT j l))) -> Q M) ->
  wp (mul_naive_main clear C A BT) Q.
Proof.
  intros clear R K n2 C A BT Q HC HA HB HK Hn2 HQ. unfold mul_naive_main.
  apply wp_bind, (wp_start clear R n2); [exact HC|lia|]. intros C0 HC0 HZ.
  rewrite (okd_width R K A HA). pose proof HC0 as [Hr0 [Hc0 [HL0 HW0]]]. rewrite Hr0.
  apply wp_bind, (wp_for_up _ (fun i '(rs, pr) => okm R n2 (with_rows C0 rs) /\ length pr = 64 /\ w64 pr /\
    forall k j, k < R -> rowbit (nth k rs []) j = xorb (kept clear C k j) (Nat.ltb k i && Nat.ltb j n2 && xsum K (fun l => bitat A k l && bitat BT j l)))); [lia| | |].
  - split; [exact HC0|]. split; [reflexivity|]. split; [intros k b _; rewrite rw_repeat; apply tb_0|].
    intros k j Hk. rewrite xorb_false_r. apply (HZ k j Hk).
  - intros i [rs pr] _ Hi [HM [HLp [HWp Hrs]]]. pose proof HM as [_ [_ [HLr HWr]]].
    change (mrows (with_rows C0 rs)) with rs in *.
    apply wp_bind, (wp_aget_rowd R K); [exact HA|exact Hi|]. apply wp_bind, (wp_aget _ _ _ []); [lia|].
    apply wp_bind, (naive_row_ok n2 K BT _ HB ltac:(apply HA; exact Hi) HK R C0); auto.
    intros c' pr' Hc' HL' HW' H'. apply wp_bind, wp_aset; [lia|]. apply wp_ok.
    split; [apply (okm_upd R n2 (with_rows C0 rs)); auto|]. split; [exact HL'|]. split; [exact HW'|].
    intros k j Hk. rewrite nth_upd by lia. destruct (Nat.eqb_spec k i) as [->|Ne].
    + rewrite H', Hrs by exact Hi. destruct (Nat.ltb_spec i i), (Nat.ltb_spec i (S i)); try lia. cbn [andb].
      rewrite xorb_false_r. reflexivity.
    + rewrite Hrs by exact Hk. destruct (Nat.ltb_spec k i), (Nat.ltb_spec k (S i)); try lia; reflexivity.
  - intros [rs pr] [HM [_ [_ Hrs]]]. apply wp_ok, HQ; [exact HM|]. intros i j Hi Hj.
    unfold bitat at 1. change (mrows (with_rows C0 rs)) with rs. rewrite Hrs by exact Hi.
    destruct (Nat.ltb_spec i R), (Nat.ltb_spec j n2); try lia. reflexivity.
Qed.

(** ** Adding rows *)
Lemma combine_row_ok : forall R K n2 C B i j (Q : mzd -> Prop), okm R n2 C -> okm K n2 B -> 1 <= n2 -> i < R -> j < K ->
  (forall M, okm R n2 M -> (forall x t, bitat M x t = if Nat.eqb x i then xorb (bitat C i t) (bitat B j t) else bitat C x t) -> Q M) ->
  wp (combine_row C B i j) Q.
Proof.
  intros R K n2 C B i j Q HC HB Hn2 Hi Hj HQ. unfold combine_row. rewrite (okm_width R n2 C HC). cbv zeta.
  pose proof (wwidth_pos n2 ltac:(lia)) as Hw.
  apply wp_bind, (wp_aget_row R n2); [exact HC|exact Hi|]. apply wp_bind, (wp_aget_row K n2); [exact HB|exact Hj|].
  set (a := nth i (mrows C) []). set (b := nth j (mrows B) []).
  assert (Wa : wfr n2 a) by (apply HC; exact Hi). assert (Wb : wfr n2 b) by (apply HB; exact Hj).
  pose proof (proj1 Wa) as La. pose proof (proj1 Wb) as Lb.
  apply wp_bind, (wp_row_loop _ _ _ (fun k x => N.lxor x (rw b k))); [lia| |].
  { intros k _ Hk. apply wp_bind, (wp_aget _ _ _ 0%N); [lia|]. reflexivity. }
  intros a1 L1 H1. apply wp_bind, (wp_aget _ _ _ 0%N); [lia|]. apply wp_bind, (wp_aget _ _ _ 0%N); [lia|].
  fold (rw a1 (wwidth n2 - 1)) (rw b (wwidth n2 - 1)). apply wp_bind, wp_aset; [lia|].
  set (a2 := upd a1 _ _).
  assert (H2 : forall k t, tb (rw a2 k) t = xorb (tb (rw a k) t) (tb (rw b k) t)).
  { intros k t. unfold a2. rewrite rw_upd by lia. destruct (Nat.eqb_spec k (wwidth n2 - 1)) as [->|Ne].
    - rewrite tb_lxor, tb_land, H1, (tb_high R n2) by (assumption || lia).
      destruct (Nat.leb_spec 0 (wwidth n2 - 1)), (Nat.ltb_spec (wwidth n2 - 1) (wwidth n2 - 1)); try lia. cbn [andb]. f_equal.
      destruct (tb (rw b (wwidth n2 - 1)) t) eqn:E; [|reflexivity]. apply (proj2 Wb) in E.
      destruct (Nat.ltb_spec t 64), (Nat.ltb_spec (64 * (wwidth n2 - 1) + t) n2); lia || reflexivity.
    - rewrite H1. destruct (Nat.leb_spec 0 k), (Nat.ltb_spec k (wwidth n2 - 1)); try lia; cbn [andb].
      + apply tb_lxor.
      + rewrite !rw_over by lia. reflexivity. }
  pose proof HC as [_ [_ [HL _]]]. apply wp_bind, wp_aset; [lia|]. apply wp_ok, HQ.
  - apply (okm_upd R n2); auto. split; [unfold a2; rewrite length_upd; lia|]. intros k t. rewrite H2.
    destruct (tb (rw a k) t) eqn:E1; [intros _; apply (proj2 Wa); exact E1|]. rewrite xorb_false_l. intros E2. apply (proj2 Wb). exact E2.
  - intros x t. rewrite (bitat_upd R n2) by assumption. destruct (Nat.eqb_spec x i); [|reflexivity].
    rewrite rowbit_tb, H2. unfold bitat. rewrite !rowbit_tb. reflexivity.
Qed.

Lemma mul_va_ok : forall clear R K n2 C A B (Q : mzd -> Prop), okm R n2 C -> okd R K A -> okm K n2 B -> 1 <= n2 ->
  (forall M, okm R n2 M -> (forall i j, i < R -> j < n2 -> bitat M i j = xorb (kept clear C i j) (fmul K (bitat A) (bitat B) i j)) -> Q M) ->
  wp (mul_va clear C A B) Q.
Proof.
  intros clear R K n2 C A B Q HC HA HB Hn2 HQ. unfold mul_va.
  apply wp_bind, (wp_start clear R n2); [exact HC|lia|]. intros C0 HC0 HZ. pose proof HA as [HrA [HcA _]]. rewrite HrA, HcA.
  apply (wp_for_up _ (fun i M => okm R n2 M /\ forall x t, x < R ->
    bitat M x t = xorb (kept clear C x t) (if Nat.ltb x i then fmul K (bitat A) (bitat B) x t else false))); [lia| | |].
  - split; [exact HC0|]. intros x t Hx. cbn [Nat.ltb Nat.leb]. rewrite xorb_false_r. apply HZ. exact Hx.
  - intros i M _ Hi [HM HMb].
    apply (wp_for_up _ (fun j M' => okm R n2 M' /\ forall x t, x < R ->
      bitat M' x t = if Nat.eqb x i then xorb (kept clear C x t) (fmul j (bitat A) (bitat B) x t) else bitat M x t)); [lia| | |].
    + split; [exact HM|]. intros x t Hx. destruct (Nat.eqb_spec x i) as [->|]; [|reflexivity].
      rewrite HMb by exact Hx. destruct (Nat.ltb_spec i i); [lia|]. reflexivity.
    + intros j M1 _ Hj [HM1 H1]. apply wp_bind, (wp_read_bitd R K); [exact HA|exact Hi|exact Hj|].
      destruct (bitat A i j) eqn:E.
      * apply (combine_row_ok R K n2); auto. intros M2 HM2 H2. split; [exact HM2|]. intros x t Hx. rewrite H2, !H1 by assumption.
        destruct (Nat.eqb_spec x i) as [->|]; [|reflexivity]. rewrite Nat.eqb_refl. unfold fmul. cbn [xsum]. rewrite E, xorb_assoc. reflexivity.
      * apply wp_ok. split; [exact HM1|]. intros x t Hx. rewrite H1 by exact Hx.
        destruct (Nat.eqb_spec x i) as [->|]; [|reflexivity]. unfold fmul. cbn [xsum]. rewrite E. cbn [andb]. rewrite xorb_false_r. reflexivity.
    + intros M1 [HM1 H1]. split; [exact HM1|]. intros x t Hx. rewrite H1, HMb by exact Hx.
      destruct (Nat.eqb_spec x i), (Nat.ltb_spec x i), (Nat.ltb_spec x (S i)); try lia; reflexivity.
  - intros M [HM H]. apply HQ; [exact HM|]. intros i j Hi Hj. rewrite H by exact Hi. destruct (Nat.ltb_spec i R); [reflexivity|lia].
Qed.

Lemma wp_naive_body : forall clear R K n2 junk C A B (Q : mzd -> Prop), okm R n2 C -> okd R K A -> okm K n2 B -> 1 <= K -> 1 <= n2 ->
  fits K n2 -> fits n2 K -> (forall b, length (junk b) = 64 /\ w64 (junk b)) ->
  (forall M, okm R n2 M -> (forall i j, i < R -> j < n2 -> bitat M i j = xorb (kept clear C i j) (fmul K (bitat A) (bitat B) i j)) -> Q M) ->
  wp (mul_naive_body clear junk C A B) Q.
Proof.
  intros clear R K n2 junk C A B Q HC HA HB HK Hn2 HF1 HF2 Hj HQ. unfold mul_naive_body.
  destruct (Nat.ltb (mncols B) 54); [|apply (mul_va_ok clear R K n2); auto].
  apply wp_bind, (wp_transpose K n2); auto. intros BT HBT HT.
  apply (mul_naive_main_ok clear R K n2); auto. intros M HM H. apply HQ; [exact HM|]. intros i j Hi Hj'.
  rewrite H by assumption. f_equal. apply xsum_ext. intros l Hl. rewrite HT by assumption. reflexivity.
Qed.

Lemma wp_mul_naive : forall R K n2 junk C A B (Q : mzd -> Prop), okm R n2 C -> okm R K A -> okm K n2 B -> 1 <= K -> 1 <= n2 ->
  fits K n2 -> fits n2 K -> (forall b, length (junk b) = 64 /\ w64 (junk b)) ->
  (forall M, okm R n2 M -> (forall i j, i < R -> j < n2 -> bitat M i j = fmul K (bitat A) (bitat B) i j) -> Q M) ->
  wp (mzd_mul_naive junk C A B) Q.
Proof.
  intros R K n2 junk C A B Q HC HA HB HK Hn2 HF1 HF2 Hj HQ. apply (wp_naive_body true R K n2); auto.
  intros M HM H. apply HQ; [exact HM|]. intros i j Hi Hj'. rewrite H by assumption. apply xorb_false_l.
Qed.
