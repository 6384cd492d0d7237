(** mzd_concat, mzd_stack, mzd_submatrix of ModelM4ri2.v *)
From Coq Require Import Arith NArith ZArith List Bool Lia ZifyNat.
From Verif Require Import Base Spec LinAlg ModelM4ri SpecM4ri M4ri1 ModelM4ri2 M4ri9 M4ri16 M4ri18.
Import ListNotations.
Local Open Scope nat_scope.
#[local] Ltac Zify.zify_post_hook ::= Z.to_euclidean_division_equations.

(** Copying a row of C words into a zero row of C' >= C columns *)
Lemma copy_row : forall C C' a c (Q : list N -> Prop), C <= C' -> wfr C a -> length c = wwidth C' ->
  (forall k, rw c k = 0%N) ->
  (forall c', wfr C' c' -> (forall j, rowbit c' j = rowbit a j) -> Q c') ->
  wp (row_loop 0 (wwidth C) (fun k _ => aget a k) c) Q.
Proof.
  intros C C' a c Q HC Ha Lc Hz HQ. pose proof (proj1 Ha) as La.
  assert (Hww : wwidth C <= wwidth C') by (unfold wwidth; lia).
  apply (wp_row_loop _ _ _ (fun k _ => rw a k)); [lia| |].
  - intros k _ Hk. apply (wp_aget _ _ _ 0%N); [lia|reflexivity].
  - intros c' Lc' H.
    assert (HE : forall k, rw c' k = rw a k).
    { intros k. rewrite H. destruct (Nat.leb_spec 0 k), (Nat.ltb_spec k (wwidth C)); try lia; [reflexivity|].
      cbn [andb]. rewrite Hz. unfold rw. symmetry. apply nth_overflow. lia. }
    apply HQ.
    + split; [lia|]. intros k b. rewrite HE. intros Hb. apply (proj2 Ha) in Hb. lia.
    + intros j. rewrite !rowbit_tb, HE. reflexivity.
Qed.

Lemma row_bound : forall C a c, wfr C a -> C <= c -> rowbit a c = false.
Proof. intros C a c Ha Hc. apply (wfr_zero C); assumption. Qed.

Lemma init_rw : forall R C i k, rw (nth i (mrows (mzd_init R C)) []) k = 0%N.
Proof.
  intros R C i k. cbn. destruct (Nat.lt_ge_cases i R).
  - rewrite nth_repeat_in by assumption. apply rw_repeat.
  - unfold rw. rewrite (nth_overflow (repeat _ R)) by (rewrite repeat_length; assumption). destruct k; reflexivity.
Qed.

(** ** mzd_concat *)
Lemma wp_concat : forall R CA CB A B (Q : mzd -> Prop), okm R CA A -> okm R CB B ->
  (forall M, okm R (CA + CB) M ->
     (forall i j, i < R -> bitat M i j = if Nat.ltb j CA then bitat A i j else bitat B i (j - CA)) -> Q M) ->
  wp (mzd_concat A B) Q.
Proof.
  intros R CA CB A B Q HA HB HQ. unfold mzd_concat. rewrite (okm_width R CA A HA).
  pose proof HA as [HrA [HcA [HLA HWA]]]. pose proof HB as [HrB [HcB [HLB HWB]]].
  rewrite HrA, HrB, HcA, HcB, !Nat.eqb_refl. cbn [negb]. cbv zeta.
  destruct (init_ok R (CA + CB)) as [HI HZ].
  apply wp_bind, (wp_rows_loop R (CA + CB) (mzd_init R (CA + CB)) _ (bitat A)); [exact HI| |].
  - intros i rs Hi HLr Hrow. apply wp_bind, (wp_aget_row R CA); auto.
    apply wp_bind, (wp_aget _ _ _ []); [lia|]. rewrite Hrow.
    apply wp_bind, (copy_row CA (CA + CB)); [lia|apply HWA; exact Hi|apply HI; exact Hi|apply init_rw|].
    intros c' Wc Hc. apply wp_aset; [lia|]. eexists. split; [reflexivity|]. split; [exact Wc|exact Hc].
  - intros rs HM Hs. set (M0 := with_rows (mzd_init R (CA + CB)) rs) in *.
    apply (wp_for_up _ (fun i M => okm R (CA + CB) M /\ forall a j, a < R ->
      bitat M a j = if Nat.ltb j CA then bitat A a j else if Nat.ltb a i then bitat B a (j - CA) else false)); [lia| | |].
    + split; [exact HM|]. intros a j Ha. replace (Nat.ltb a 0) with false by (symmetry; apply Nat.ltb_ge; lia).
      change (bitat M0 a j) with (rowbit (nth a rs []) j). rewrite Hs by exact Ha.
      destruct (Nat.ltb_spec j CA); [reflexivity|]. apply (bitat_zero R CA); auto.
    + intros i M _ Hi [HM1 H1].
      apply (wp_for_up _ (fun t M => okm R (CA + CB) M /\ forall a j, a < R ->
        bitat M a j = if Nat.ltb j CA then bitat A a j else if Nat.ltb a i then bitat B a (j - CA) else
          if Nat.eqb a i && Nat.ltb (j - CA) t then bitat B a (j - CA) else false)); [lia| | |].
      * split; [exact HM1|]. intros a j Ha. rewrite H1 by exact Ha.
        replace (Nat.ltb (j - CA) 0) with false by (symmetry; apply Nat.ltb_ge; lia). rewrite andb_false_r. reflexivity.
      * intros t M2 _ Ht [HM2 H2]. apply wp_bind, (wp_read_bit R CB); auto.
        apply (wp_write_bit R (CA + CB)); [exact HM2|exact Hi|lia|].
        intros M3 HM3 H3. split; [exact HM3|]. intros a j Ha. rewrite H3, H2 by exact Ha.
        destruct (Nat.ltb_spec j CA), (Nat.ltb_spec a i), (Nat.eqb_spec a i), (Nat.eqb_spec j (t + CA)),
          (Nat.ltb_spec (j - CA) t), (Nat.ltb_spec (j - CA) (S t)); try lia; cbn [andb]; try reflexivity.
        subst. f_equal. lia.
      * intros M2 [HM2 H2]. split; [exact HM2|]. intros a j Ha. rewrite H2 by exact Ha.
        destruct (Nat.ltb_spec j CA), (Nat.ltb_spec a i), (Nat.eqb_spec a i), (Nat.ltb_spec (j - CA) CB), (Nat.ltb_spec a (S i));
          try lia; cbn [andb]; try reflexivity.
        symmetry. apply (bitat_zero R CB); auto.
    + intros M [HM1 H1]. apply HQ; [exact HM1|]. intros a j Ha. rewrite H1 by exact Ha.
      destruct (Nat.ltb_spec a R); [reflexivity|lia].
Qed.

(** ** mzd_stack *)
Lemma wp_stack : forall RA RB C A B (Q : mzd -> Prop), okm RA C A -> okm RB C B ->
  (forall M, okm (RA + RB) C M ->
     (forall i j, i < RA + RB -> bitat M i j = if Nat.ltb i RA then bitat A i j else bitat B (i - RA) j) -> Q M) ->
  wp (mzd_stack A B) Q.
Proof.
  intros RA RB C A B Q HA HB HQ. unfold mzd_stack. rewrite (okm_width RA C A HA), (okm_width RB C B HB).
  pose proof HA as [HrA [HcA [HLA HWA]]]. pose proof HB as [HrB [HcB [HLB HWB]]].
  rewrite HrA, HrB, HcA, HcB, !Nat.eqb_refl. cbn [negb]. cbv zeta.
  destruct (init_ok (RA + RB) C) as [HI HZ].
  apply wp_bind, (wp_for_up _ (fun i rs => length rs = RA + RB /\ (forall k, i <= k -> nth k rs [] = nth k (mrows (mzd_init (RA + RB) C)) []) /\
    forall k, k < i -> wfr C (nth k rs []) /\ forall j, rowbit (nth k rs []) j = bitat A k j)); [lia| | |].
  - split; [apply HI|]. split; [reflexivity|]. intros k Hk. lia.
  - intros i rs _ Hi [HL [H1 H2]]. apply wp_bind, (wp_aget_row RA C); auto.
    apply wp_bind, (wp_aget _ _ _ []); [lia|]. rewrite H1 by lia.
    apply wp_bind, (copy_row C C); [lia|apply HWA; exact Hi|apply HI; lia|apply init_rw|].
    intros c' Wc Hc. apply wp_aset; [lia|]. split; [rewrite length_upd; exact HL|]. split.
    + intros k Hk. rewrite nth_upd by lia. destruct (Nat.eqb_spec k i); [lia|]. apply H1. lia.
    + intros k Hk. rewrite nth_upd by lia. destruct (Nat.eqb_spec k i) as [->|]; [split; assumption|]. apply H2. lia.
  - intros rs0 [HL0 [H10 H20]].
    apply wp_bind, (wp_for_up _ (fun i rs => length rs = RA + RB /\ (forall k, RA + i <= k -> nth k rs [] = nth k (mrows (mzd_init (RA + RB) C)) []) /\
      forall k, k < RA + i -> wfr C (nth k rs []) /\ forall j, rowbit (nth k rs []) j = if Nat.ltb k RA then bitat A k j else bitat B (k - RA) j)); [lia| | |].
    + split; [exact HL0|]. split; [intros k Hk; apply H10; lia|]. intros k Hk. destruct (H20 k) as [W1 W2]; [lia|].
      split; [exact W1|]. intros j. rewrite W2. destruct (Nat.ltb_spec k RA); [reflexivity|lia].
    + intros i rs _ Hi [HL [H1 H2]]. apply wp_bind, (wp_aget_row RB C); auto.
      apply wp_bind, (wp_aget _ _ _ []); [lia|]. rewrite H1 by lia.
      apply wp_bind, (copy_row C C); [lia|apply HWB; exact Hi|apply HI; lia|apply init_rw|].
      intros c' Wc Hc. apply wp_aset; [lia|]. split; [rewrite length_upd; exact HL|]. split.
      * intros k Hk. rewrite nth_upd by lia. destruct (Nat.eqb_spec k (RA + i)); [lia|]. apply H1. lia.
      * intros k Hk. rewrite nth_upd by lia. destruct (Nat.eqb_spec k (RA + i)) as [->|].
        -- split; [exact Wc|]. intros j. rewrite Hc. destruct (Nat.ltb_spec (RA + i) RA); [lia|].
           replace (RA + i - RA) with i by lia. reflexivity.
        -- apply H2. lia.
    + intros rs [HL [_ H2]]. apply wp_ok, HQ.
      * split; [reflexivity|]. split; [reflexivity|]. split; [exact HL|]. intros i Hi. apply H2. exact Hi.
      * intros i j Hi. apply H2. exact Hi.
Qed.

(** ** mzd_submatrix *)
Lemma wp_submatrix : forall R C M sr sc er ec (Q : mzd -> Prop), okm R C M -> sr <= er -> er <= R -> sc <= ec -> ec <= C ->
  sc mod 64 = 0 \/ (ec - sc) mod 64 <> 0 ->
  (forall S, okm (er - sr) (ec - sc) S ->
     (forall i j, i < er - sr -> j < ec - sc -> bitat S i j = bitat M (sr + i) (sc + j)) -> Q S) ->
  wp (mzd_submatrix M sr sc er ec) Q.
Proof.
  intros R C M sr sc er ec Q HM H1 H2 H3 H4 Hal HQ. unfold mzd_submatrix.
  destruct (Nat.ltb_spec er sr); [lia|]. destruct (Nat.ltb_spec ec sc); [lia|]. cbn [orb]. cbv zeta.
  set (nr := er - sr) in *. set (nc := ec - sc) in *.
  assert (Hnr : sr + nr <= R) by lia. assert (Hnc : sc + nc <= C) by lia. clearbody nr nc.
  destruct (init_ok nr nc) as [HI HZ].
  apply wp_bind, (wp_rows_loop nr nc (mzd_init nr nc) _ (fun i j => Nat.ltb j nc && bitat M (sr + i) (sc + j))); [exact HI| |].
  - intros i rs Hi HLr Hrow. apply wp_bind, (wp_aget _ _ _ []); [lia|]. rewrite Hrow.
    set (row := nth i (mrows (mzd_init nr nc)) []). assert (Wr : wfr nc row) by (apply HI; exact Hi).
    pose proof (proj1 Wr) as Lr. assert (Zr : forall k, rw row k = 0%N) by (intros k; apply init_rw).
    assert (WM : wfr C (nth (sr + i) (mrows M) [])) by (apply HM; lia).
    apply wp_bind. unfold submatrix_row. destruct (Nat.eqb_spec (sc mod 64) 0) as [E0|E0].
    + apply wp_bind, (wp_row_loop _ _ _ (fun k _ => rw (nth (sr + i) (mrows M) []) (sc / 64 + k))); [unfold wwidth in Lr; lia| |].
      { intros k _ Hk. apply (wp_wget R C); [exact HM|lia|unfold wwidth; lia|reflexivity]. }
      intros row1 L1 Hr1.
      assert (P1 : forall k b, b < 64 -> k < nc / 64 -> tb (rw row1 k) b = bitat M (sr + i) (sc + (64 * k + b))).
      { intros k b Hb Hk. rewrite Hr1. destruct (Nat.leb_spec 0 k), (Nat.ltb_spec k (nc / 64)); try lia. cbn [andb].
        rewrite <- rowbit_rw by exact Hb. unfold bitat. f_equal. lia. }
      destruct (Nat.eqb_spec (nc mod 64) 0) as [E1|E1].
      * apply wp_ok. apply wp_aset; [lia|]. eexists. split; [reflexivity|].
        assert (HH : forall k b, tb (rw row1 k) b = Nat.ltb b 64 && (Nat.ltb (64 * k + b) nc && bitat M (sr + i) (sc + (64 * k + b)))).
        { intros k b. destruct (Nat.ltb_spec b 64) as [Hb|Hb]; cbn [andb].
          - destruct (Nat.ltb_spec (64 * k + b) nc) as [Hk|Hk]; cbn [andb]; [apply P1; lia|].
            rewrite Hr1. destruct (Nat.leb_spec 0 k), (Nat.ltb_spec k (nc / 64)); try lia. cbn [andb]. rewrite Zr. apply tb_0.
          - rewrite Hr1. destruct (Nat.leb 0 k && Nat.ltb k (nc / 64)); [|rewrite Zr; apply tb_0].
            apply (wfr_tb C); [exact WM|lia]. }
        split; [split; [lia|]|].
        -- intros k b. rewrite HH. destruct (Nat.ltb_spec b 64), (Nat.ltb_spec (64 * k + b) nc); try discriminate. intros _. lia.
        -- intros j. rewrite rowbit_tb, HH. replace (64 * (j / 64) + j mod 64) with j by lia.
           destruct (Nat.ltb_spec (j mod 64) 64); [reflexivity|lia].
      * apply wp_bind, (wp_wget R C); [exact HM|lia|unfold wwidth; lia|].
        apply wp_aset; [unfold wwidth in Lr; lia|]. apply wp_aset; [lia|]. eexists. split; [reflexivity|].
        set (x := N.land _ _).
        assert (HH : forall k b, tb (rw (upd row1 (nc / 64) x) k) b = Nat.ltb b 64 && (Nat.ltb (64 * k + b) nc && bitat M (sr + i) (sc + (64 * k + b)))).
        { intros k b. rewrite rw_upd by (unfold wwidth in Lr; lia). destruct (Nat.eqb_spec k (nc / 64)) as [->|Ne].
          - unfold x. rewrite tb_land, tb_left by lia. rewrite Nat.mod_mod by lia.
            destruct (Nat.eqb_spec (nc mod 64) 0); [lia|].
            destruct (Nat.ltb_spec b (nc mod 64)), (Nat.ltb_spec b 64), (Nat.ltb_spec (64 * (nc / 64) + b) nc); try lia; cbn [andb];
              rewrite ?andb_false_r, ?andb_true_r; try reflexivity.
            rewrite <- rowbit_rw by lia. unfold bitat. f_equal. lia.
          - destruct (Nat.ltb_spec b 64) as [Hb|Hb]; cbn [andb].
            + destruct (Nat.ltb_spec (64 * k + b) nc) as [Hk|Hk]; cbn [andb]; [apply P1; lia|].
              rewrite Hr1. destruct (Nat.leb_spec 0 k), (Nat.ltb_spec k (nc / 64)); try lia. cbn [andb]. rewrite Zr. apply tb_0.
            + rewrite Hr1. destruct (Nat.leb 0 k && Nat.ltb k (nc / 64)); [|rewrite Zr; apply tb_0].
              apply (wfr_tb C); [exact WM|lia]. }
        split; [split; [rewrite length_upd; lia|]|].
        -- intros k b. rewrite HH. destruct (Nat.ltb_spec b 64), (Nat.ltb_spec (64 * k + b) nc); try discriminate. intros _. lia.
        -- intros j. rewrite rowbit_tb, HH. replace (64 * (j / 64) + j mod 64) with j by lia.
           destruct (Nat.ltb_spec (j mod 64) 64); [reflexivity|lia].
    + destruct Hal as [Hal|Hal]; [contradiction|].
      (* the words of 64 bits *)
      apply wp_bind. unfold row_loop.
      apply (wp_for_up _ (fun t r => length r = length row /\ (forall k, t <= k -> rw r k = 0%N) /\
        forall k b, k < t -> tb (rw r k) b = Nat.ltb b 64 && bitat M (sr + i) (sc + (64 * k + b)))); [lia| | |].
      * split; [reflexivity|]. split; [intros k _; apply Zr|]. intros k b Hk. lia.
      * intros t r _ Ht [L1 [Hz Hr1]]. apply wp_bind, (wp_aget _ _ _ 0%N); [unfold wwidth in Lr; lia|].
        apply wp_bind, (wp_read_bits R C); [exact HM|lia|lia|lia|lia|]. intros v Hv.
        apply wp_aset; [unfold wwidth in Lr; lia|]. split; [rewrite length_upd; exact L1|]. split.
        -- intros k Hk. rewrite rw_upd by (unfold wwidth in Lr; lia). destruct (Nat.eqb_spec k t); [lia|]. apply Hz. lia.
        -- intros k b Hk. rewrite rw_upd by (unfold wwidth in Lr; lia). destruct (Nat.eqb_spec k t) as [->|Ne].
           ++ rewrite Hv. f_equal. f_equal. lia.
           ++ apply Hr1. lia.
      * intros r [L1 [Hz Hr1]]. cbv zeta. apply wp_bind, (wp_aget _ _ _ 0%N); [unfold wwidth in Lr; lia|].
        fold (rw r (nc / 64)). rewrite Hz by lia.
        apply wp_bind, (wp_read_bits R C); [exact HM|lia|lia|lia|lia|]. intros v Hv.
        apply wp_aset; [unfold wwidth in Lr; lia|]. apply wp_aset; [lia|]. eexists. split; [reflexivity|].
        set (x := N.lor _ _).
        assert (HH : forall k b, tb (rw (upd r (nc / 64) x) k) b = Nat.ltb b 64 && (Nat.ltb (64 * k + b) nc && bitat M (sr + i) (sc + (64 * k + b)))).
        { intros k b. rewrite rw_upd by (unfold wwidth in Lr; lia). destruct (Nat.eqb_spec k (nc / 64)) as [->|Ne].
          - unfold x. rewrite tb_lor, tb_ldiff, tb_land, tb_0, (tb_high nr nc) by (assumption || lia). cbn [andb orb]. rewrite Hv.
            replace (64 * (wwidth nc - 1)) with (64 * (nc / 64)) by (unfold wwidth; lia).
            destruct (Nat.ltb_spec b (nc - 64 * (nc / 64))), (Nat.ltb_spec b 64), (Nat.ltb_spec (64 * (nc / 64) + b) nc); try lia; cbn [andb];
              rewrite ?andb_false_r, ?andb_true_r; try reflexivity.
            f_equal. lia.
          - destruct (Nat.lt_ge_cases k (nc / 64)) as [Hk|Hk].
            + rewrite Hr1 by exact Hk. destruct (Nat.ltb_spec b 64) as [Hb|Hb]; [|reflexivity]. cbn [andb].
              destruct (Nat.ltb_spec (64 * k + b) nc); [reflexivity|lia].
            + rewrite Hz by exact Hk. rewrite tb_0. destruct (Nat.ltb_spec (64 * k + b) nc); [lia|]. rewrite andb_false_r. reflexivity. }
        split; [split; [rewrite length_upd; lia|]|].
        -- intros k b. rewrite HH. destruct (Nat.ltb_spec b 64), (Nat.ltb_spec (64 * k + b) nc); try discriminate. intros _. lia.
        -- intros j. rewrite rowbit_tb, HH. replace (64 * (j / 64) + j mod 64) with j by lia.
           destruct (Nat.ltb_spec (j mod 64) 64); [reflexivity|lia].
  - intros rs HM' Hs. apply wp_ok, HQ; [exact HM'|]. intros i j Hi Hj.
    change (bitat (with_rows (mzd_init nr nc) rs) i j) with (rowbit (nth i rs []) j). rewrite Hs by exact Hi.
    destruct (Nat.ltb_spec j nc); [reflexivity|lia].
Qed.
