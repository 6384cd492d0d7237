(** Transposition of matrices of up to 16 rows and columns, and the corner, ModelM4ri2.v *)
From Coq Require Import Arith NArith ZArith List Bool Lia ZifyNat.
From Verif Require Import Base Spec ModelM4ri SpecM4ri M4ri1 ModelM4ri2 M4ri9 M4ri10 M4ri11 M4ri12.
Import ListNotations.
Local Open Scope nat_scope.
#[local] Ltac Zify.zify_post_hook ::= Z.to_euclidean_division_equations.

Definition m16 (d : nat) : N := N.shiftr 0xF0000F0000F0 (N.of_nat (16 * (d - 1))).
Lemma m16_ok : forall d p, 1 <= d -> d < 4 -> p < 64 -> tb (m16 d) p = Nat.eqb ((p / 4) mod 4) (p / 16 + d).
Proof.
  intros d p H1 H2 H3.
  assert (H : forallb (fun d => forallb (fun p => Bool.eqb (tb (m16 d) p) (Nat.eqb ((p / 4) mod 4) (p / 16 + d))) (seq 0 64)) (seq 1 3) = true)
    by (vm_compute; reflexivity).
  rewrite forallb_forall in H. assert (Hd : In d (seq 1 3)) by (apply in_seq; lia).
  specialize (H _ Hd). rewrite forallb_forall in H. apply eqb_prop, H, in_seq. lia.
Qed.
Lemma m16_high : forall d p, 1 <= d -> 64 <= p -> tb (m16 d) p = false.
Proof.
  intros d p H1 H2. unfold m16. rewrite tb_shr. revert H2. generalize (16 * (d - 1)). intros k H.
  apply (proj1 (tb_lt 0xF0000F0000F0 64)); [reflexivity|lia].
Qed.

(** The exchanges up to the d-th diagonal are done *)
Definition diag (d : nat) (w0 w : N) : Prop :=
  (forall p, 64 <= p -> tb w p = false) /\
  forall p, p < 64 -> tb w p =
    if Nat.ltb (p / 16) ((p / 4) mod 4 + d) && Nat.ltb ((p / 4) mod 4) (p / 16 + d)
    then tb w0 (16 * ((p / 4) mod 4) + 4 * (p / 16) + p mod 4) else tb w0 p.
Lemma diag_step : forall d w0 w s y, 1 <= d -> d < 4 -> diag d w0 w ->
  (forall b, tb s b = tb w (b + 12 * d)) ->
  (forall b, tb y b = Nat.leb (12 * d) b && tb (N.land (N.lxor w s) (m16 d)) (b - 12 * d) && Nat.ltb b 64) ->
  diag (S d) w0 (N.lxor (N.lxor w y) (N.land (N.lxor w s) (m16 d))).
Proof.
  intros d w0 w s y Hd1 Hd [Hh Hw] Hs Hy. set (x := N.land (N.lxor w s) (m16 d)) in *.
  assert (Hx : forall p, p < 64 -> tb x p = Nat.eqb ((p / 4) mod 4) (p / 16 + d) && xorb (tb w p) (tb w (p + 12 * d))).
  { intros p Hp. unfold x. rewrite tb_land, tb_lxor, Hs, m16_ok by lia. apply andb_comm. }
  assert (Hxh : forall p, 64 <= p -> tb x p = false).
  { intros p Hp. unfold x. rewrite tb_land, m16_high by lia. apply andb_false_r. }
  split.
  - intros p Hp. rewrite !tb_lxor, Hy, Hh, (Hxh p) by lia. destruct (Nat.ltb_spec p 64); [lia|]. rewrite andb_false_r. reflexivity.
  - intros p Hp. rewrite !tb_lxor, Hy, (Hx p) by exact Hp. destruct (Nat.ltb_spec p 64); [|lia]. rewrite andb_true_r.
    assert (Hup : (p / 4) mod 4 = p / 16 + d ->
      xorb (tb w p) (xorb (tb w p) (tb w (p + 12 * d))) = tb w0 (16 * ((p / 4) mod 4) + 4 * (p / 16) + p mod 4)).
    { intros E. replace (xorb (tb w p) (xorb (tb w p) (tb w (p + 12 * d)))) with (tb w (p + 12 * d))
        by (destruct (tb w p), (tb w (p + 12 * d)); reflexivity).
      rewrite Hw by lia.
      destruct (Nat.ltb_spec ((p + 12 * d) / 16) (((p + 12 * d) / 4) mod 4 + d)),
        (Nat.ltb_spec (((p + 12 * d) / 4) mod 4) ((p + 12 * d) / 16 + d)); try lia. cbn [andb]. f_equal. lia. }
    destruct (Nat.leb_spec (12 * d) p) as [H1|H1].
    + rewrite Hx by lia. cbn [andb].
      destruct (Nat.eqb_spec (((p - 12 * d) / 4) mod 4) ((p - 12 * d) / 16 + d)) as [E1|E1].
      * assert (Eb : p / 16 = (p / 4) mod 4 + d) by lia.
        destruct (Nat.eqb_spec ((p / 4) mod 4) (p / 16 + d)); [lia|]. cbn [andb]. rewrite xorb_false_r.
        replace (p - 12 * d + 12 * d) with p by lia.
        replace (xorb (tb w p) (xorb (tb w (p - 12 * d)) (tb w p))) with (tb w (p - 12 * d))
          by (destruct (tb w p), (tb w (p - 12 * d)); reflexivity).
        rewrite Hw by lia.
        destruct (Nat.ltb_spec ((p - 12 * d) / 16) (((p - 12 * d) / 4) mod 4 + d)),
          (Nat.ltb_spec (((p - 12 * d) / 4) mod 4) ((p - 12 * d) / 16 + d)); try lia.
        destruct (Nat.ltb_spec (p / 16) ((p / 4) mod 4 + S d)), (Nat.ltb_spec ((p / 4) mod 4) (p / 16 + S d)); try lia.
        cbn [andb]. f_equal. lia.
      * cbn [andb]. rewrite xorb_false_r.
        destruct (Nat.eqb_spec ((p / 4) mod 4) (p / 16 + d)) as [E2|E2].
        -- cbn [andb]. rewrite (Hup E2).
           destruct (Nat.ltb_spec (p / 16) ((p / 4) mod 4 + S d)), (Nat.ltb_spec ((p / 4) mod 4) (p / 16 + S d)); try lia. reflexivity.
        -- cbn [andb]. rewrite xorb_false_r, Hw by exact Hp.
           destruct (Nat.ltb_spec (p / 16) ((p / 4) mod 4 + d)), (Nat.ltb_spec ((p / 4) mod 4) (p / 16 + d)),
             (Nat.ltb_spec (p / 16) ((p / 4) mod 4 + S d)), (Nat.ltb_spec ((p / 4) mod 4) (p / 16 + S d)); try lia; reflexivity.
    + cbn [andb]. rewrite xorb_false_r.
      destruct (Nat.eqb_spec ((p / 4) mod 4) (p / 16 + d)) as [E2|E2].
      * cbn [andb]. rewrite (Hup E2).
        destruct (Nat.ltb_spec (p / 16) ((p / 4) mod 4 + S d)), (Nat.ltb_spec ((p / 4) mod 4) (p / 16 + S d)); try lia. reflexivity.
      * cbn [andb]. rewrite xorb_false_r, Hw by exact Hp.
        destruct (Nat.ltb_spec (p / 16) ((p / 4) mod 4 + d)), (Nat.ltb_spec ((p / 4) mod 4) (p / 16 + d)),
          (Nat.ltb_spec (p / 16) ((p / 4) mod 4 + S d)), (Nat.ltb_spec ((p / 4) mod 4) (p / 16 + S d)); try lia; reflexivity.
Qed.

Lemma le16_ok : forall n m ws (Q : list N -> Prop), 1 <= n -> n <= 16 -> 1 <= m -> m <= 16 -> wm n m ws ->
  (forall l, trans n m ws l -> Q l) -> wp (transpose_le16 n m (Nat.max n m) ws) Q.
Proof.
  intros n m ws Q Hn0 Hn Hm0 Hm [HL HW] HQ. unfold transpose_le16.
  change [0; 0; 0; 0]%N with (repeat 0%N 4).
  apply wp_bind, (collect_rows_ok 4 16); [lia|lia| | |].
  { split; [exact HL|]. intros i b Hb. apply HW. lia. }
  { intros i Hi. lia. }
  intros t0 HL0 Ht0. set (D := Nat.max 2 ((Nat.max n m + 3) / 4)).
  apply wp_bind, (wp_for_up _ (fun d '(t, mask) => mask = m16 d /\ length t = 4 /\
    forall a, a < 4 -> diag d (rw t0 a) (rw t a))); [unfold D; lia| | |].
  - split; [reflexivity|]. split; [exact HL0|]. intros a Ha. split.
    + intros p Hp. rewrite Ht0 by exact Ha. destruct (Nat.ltb_spec p 64); [lia|reflexivity].
    + intros p Hp. destruct (Nat.ltb_spec (p / 16) ((p / 4) mod 4 + 1)), (Nat.ltb_spec ((p / 4) mod 4) (p / 16 + 1)); cbn [andb]; try reflexivity.
      f_equal. lia.
  - intros d [t mask] Hd1 Hd2 [-> [HLt Ht]]. assert (Hd : d < 4) by (unfold D in Hd2; lia).
    apply wp_bind, (wp_for_up _ (fun a' t => length t = 4 /\
      forall a, a < 4 -> diag (if Nat.ltb a a' then S d else d) (rw t0 a) (rw t a))); [lia| | |].
    + split; [exact HLt|]. intros a Ha. exact (Ht a Ha).
    + intros a t1 _ Ha [HL1 H1]. apply wp_bind, (wp_aget _ _ _ 0%N); [lia|]. fold (rw t1 a).
      apply wp_bind, wp_shr; [lia|]. intros s Hs. cbv zeta. apply wp_bind, wp_shl; [lia|]. intros y Hy.
      apply wp_aset; [lia|]. split; [rewrite length_upd; exact HL1|]. intros a2 Ha2. rewrite rw_upd by lia.
      destruct (Nat.eqb_spec a2 a) as [->|Ne].
      * destruct (Nat.ltb_spec a (S a)); [|lia]. apply diag_step; auto.
        specialize (H1 a Ha). destruct (Nat.ltb_spec a a); [lia|]. exact H1.
      * specialize (H1 a2 Ha2). destruct (Nat.ltb_spec a2 a), (Nat.ltb_spec a2 (S a)); try lia; exact H1.
    + intros t1 [HL1 H1]. split; [|split; [exact HL1|]].
      * unfold m16. change 16%N with (N.of_nat 16). rewrite N.shiftr_shiftr. f_equal. lia.
      * intros a Ha. specialize (H1 a Ha). destruct (Nat.ltb_spec a 4); [exact H1|lia].
  - intros [t mask] [_ [HLt Ht]]. apply wp_bind, nxj_ok; [lia| | |].
    + change (2 ^ Nat.log2_up 4) with 4. lia.
    + intros k b Hb. destruct (Nat.lt_ge_cases k 4); [|rewrite rw_over by lia; apply tb_0].
      destruct (Ht k ltac:(assumption)) as [Hh _]. apply Hh. exact Hb.
    + change (2 ^ Nat.log2_up 4) with 4. intros t' HL' HW' H'.
      apply (wp_collect _ _ (fun c x => forall i, tb x i = Nat.ltb i n && tb (rw ws i) c)).
      * intros c l Hc. apply wp_bind, (wp_aget _ _ _ 0%N); [lia|]. fold (rw t' (c mod 4)).
        apply wp_bind, wp_shr; [lia|]. intros y Hy. apply wp_ok. eexists. split; [reflexivity|].
        intros i. change 65535%N with (N.ones (N.of_nat 16)). rewrite tb_land, Hy, tb_ones.
        destruct (Nat.ltb_spec i 16); [|destruct (Nat.ltb_spec i n); [lia|apply andb_false_r]].
        rewrite andb_true_r, H' by lia.
        set (p := 4 * ((i + 16 * (c / 4)) / 4) + c mod 4). set (a := (i + 16 * (c / 4)) mod 4).
        assert (Ha : a = i mod 4) by (unfold a; lia).
        assert (Hp : p = 16 * (c / 4) + 4 * (i / 4) + c mod 4) by (unfold p; lia). clearbody a p.
        destruct (Ht a ltac:(lia)) as [_ Hw]. rewrite Hw by lia.
        assert (E1 : p / 16 = c / 4) by lia. assert (E2 : (p / 4) mod 4 = i / 4) by lia.
        assert (E3 : p mod 4 = c mod 4) by lia. rewrite E1, E2, E3.
        destruct (Nat.ltb_spec (c / 4) (i / 4 + D)) as [H1|H1], (Nat.ltb_spec (i / 4) (c / 4 + D)) as [H2|H2]; cbn [andb].
        -- rewrite Ht0 by lia. destruct (Nat.ltb_spec (16 * (i / 4) + 4 * (c / 4) + c mod 4) 64); [|lia]. cbn [andb].
           replace (4 * ((16 * (i / 4) + 4 * (c / 4) + c mod 4) / 16) + a) with i by lia.
           replace ((16 * (i / 4) + 4 * (c / 4) + c mod 4) mod 16) with c by lia. reflexivity.
        -- rewrite Ht0 by lia. replace (p mod 16) with (4 * (i / 4) + c mod 4) by lia.
           rewrite HW by (unfold D in *; lia). rewrite andb_false_r.
           destruct (Nat.ltb_spec i n); [unfold D in *; lia|reflexivity].
        -- unfold D in *; lia.
        -- unfold D in *; lia.
      * intros l HLl Hl. apply HQ. split; [exact HLl|]. intros c i Hc. apply Hl. exact Hc.
Qed.

Lemma corner_ok : forall n m ws (Q : list N -> Prop), 1 <= n -> n <= 64 -> 1 <= m -> m <= 64 -> wm n m ws ->
  (forall l, trans n m ws l -> Q l) -> wp (trans_corner n m ws) Q.
Proof.
  intros n m ws Q Hn0 Hn Hm0 Hm HW HQ. unfold trans_corner. cbv zeta.
  destruct (Nat.leb_spec (Nat.max n m) 8); [apply le8_ok; auto; lia|].
  destruct (Nat.leb_spec (Nat.max n m) 16); [apply le16_ok; auto; lia|].
  destruct (Nat.leb_spec (Nat.max n m) 32); [apply le32_ok; auto; lia|].
  apply le64_ok; auto.
Qed.
