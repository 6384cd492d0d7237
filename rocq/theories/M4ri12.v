(** Transposition of matrices of up to 8, 16 and 32 rows and columns, ModelM4ri2.v *)
From Coq Require Import Arith NArith ZArith List Bool Lia ZifyNat.
From Verif Require Import Base Spec ModelM4ri SpecM4ri M4ri1 ModelM4ri2 M4ri9 M4ri10 M4ri11.
Import ListNotations.
Local Open Scope nat_scope.
#[local] Ltac Zify.zify_post_hook ::= Z.to_euclidean_division_equations.

(** ** At most 8 *)
Definition m8 (d : nat) : N := N.shiftr 0x80402010080402 (N.of_nat (8 * (d - 1))).
Lemma m8_ok : forall d p, 1 <= d -> d < 8 -> p < 64 -> tb (m8 d) p = Nat.eqb (p mod 8) (p / 8 + d).
Proof.
  intros d p H1 H2 H3.
  assert (H : forallb (fun d => forallb (fun p => Bool.eqb (tb (m8 d) p) (Nat.eqb (p mod 8) (p / 8 + d))) (seq 0 64)) (seq 1 7) = true)
    by (vm_compute; reflexivity).
  rewrite forallb_forall in H. assert (Hd : In d (seq 1 7)) by (apply in_seq; lia).
  specialize (H _ Hd). rewrite forallb_forall in H. apply eqb_prop, H, in_seq. lia.
Qed.
Lemma m8_high : forall d p, 1 <= d -> 64 <= p -> tb (m8 d) p = false.
Proof.
  intros d p H1 H2. unfold m8. rewrite tb_shr. revert H2. generalize (8 * (d - 1)). intros k H.
  apply (proj1 (tb_lt 0x80402010080402 64)); [reflexivity|lia].
Qed.

Lemma le8_ok : forall n m ws (Q : list N -> Prop), 1 <= n -> n <= 8 -> 1 <= m -> m <= 8 -> wm n m ws ->
  (forall l, trans n m ws l -> Q l) -> wp (transpose_le8 n m (Nat.max n m) ws) Q.
Proof.
  intros n m ws Q Hn0 Hn Hm0 Hm [HL HW] HQ. unfold transpose_le8.
  apply wp_bind, (wp_for_up _ (fun i w => forall p, tb w p = Nat.ltb (p / 8) i && tb (rw ws (p / 8)) (p mod 8))); [lia| | |].
  { intros p. rewrite tb_0. reflexivity. }
  { intros i w _ Hi Hw. apply wp_bind, (wp_aget _ _ _ 0%N); [lia|]. fold (rw ws i).
    apply wp_bind, wp_shl; [lia|]. intros y Hy. apply wp_ok. intros p. rewrite tb_lor, Hw, Hy.
    destruct (Nat.lt_trichotomy (p / 8) i) as [H1|[H1|H1]].
    - destruct (Nat.ltb_spec (p / 8) i), (Nat.ltb_spec (p / 8) (S i)), (Nat.leb_spec (8 * i) p); try lia.
      apply orb_false_r.
    - rewrite H1. destruct (Nat.ltb_spec i i), (Nat.ltb_spec i (S i)), (Nat.leb_spec (8 * i) p), (Nat.ltb_spec p 64); try lia.
      cbn [andb orb]. rewrite andb_true_r. f_equal. lia.
    - destruct (Nat.ltb_spec (p / 8) i), (Nat.ltb_spec (p / 8) (S i)), (Nat.leb_spec (8 * i) p); try lia.
      cbn [andb orb]. rewrite HW by lia. reflexivity. }
  intros w0 Hw0.
  assert (H64 : forall p, 64 <= p -> tb w0 p = false).
  { intros p Hp. rewrite Hw0. destruct (Nat.ltb_spec (p / 8) n); [lia|reflexivity]. }
  apply wp_bind, wp_shr; [lia|]. intros w70 Hw70. set (D := Nat.max 2 (Nat.max n m)).
  apply wp_bind, (wp_for_up _ (fun d '(w, w7, mask) => mask = m8 d /\ (forall p, tb w7 p = tb w0 (p + 7 * d)) /\
    (forall p, 64 <= p -> tb w p = false) /\
    forall p, p < 64 -> tb w p = if Nat.ltb (p / 8) (p mod 8 + d) && Nat.ltb (p mod 8) (p / 8 + d)
      then tb w0 (8 * (p mod 8) + p / 8) else tb w0 p)); [unfold D; lia| | |].
  - split; [reflexivity|]. split; [intros p; rewrite Hw70; f_equal; lia|]. split; [exact H64|].
    intros p Hp. destruct (Nat.ltb_spec (p / 8) (p mod 8 + 1)), (Nat.ltb_spec (p mod 8) (p / 8 + 1)); cbn [andb]; try reflexivity.
    f_equal. lia.
  - intros d [[w w7] mask] Hd1 Hd2 [-> [H7 [Hh Hw]]]. cbv zeta. assert (Hd : d < 8) by (unfold D in Hd2; lia).
    set (x := N.land (N.lxor w w7) (m8 d)).
    assert (Hx : forall p, p < 64 -> tb x p = Nat.eqb (p mod 8) (p / 8 + d) && xorb (tb w p) (tb w0 (p + 7 * d))).
    { intros p Hp. unfold x. rewrite tb_land, tb_lxor, H7, m8_ok by lia. apply andb_comm. }
    assert (Hxh : forall p, 64 <= p -> tb x p = false).
    { intros p Hp. unfold x. rewrite tb_land, m8_high by lia. apply andb_false_r. }
    apply wp_bind, wp_shl; [lia|]. intros y Hy. split; [|split; [|split]].
    + unfold m8. change 8%N with (N.of_nat 8). rewrite N.shiftr_shiftr. f_equal. lia.
    + intros p. change 7%N with (N.of_nat 7). rewrite tb_shr, H7. f_equal. lia.
    + intros p Hp. rewrite !tb_lxor, Hy, Hh, (Hxh p) by lia. destruct (Nat.ltb_spec p 64); [lia|]. rewrite andb_false_r. reflexivity.
    + intros p Hp. rewrite !tb_lxor, Hy, (Hx p) by exact Hp. destruct (Nat.ltb_spec p 64); [|lia]. rewrite andb_true_r.
      rewrite (Hw p Hp).
      destruct (Nat.leb_spec (7 * d) p) as [H1|H1].
      * rewrite Hx, Hw by lia. cbn [andb].
        destruct (Nat.eqb_spec ((p - 7 * d) mod 8) ((p - 7 * d) / 8 + d)) as [E1|E1].
        -- assert (Eb : p / 8 = p mod 8 + d) by lia.
           destruct (Nat.eqb_spec (p mod 8) (p / 8 + d)); [lia|].
           destruct (Nat.ltb_spec (p / 8) (p mod 8 + d)), (Nat.ltb_spec (p / 8) (p mod 8 + S d)),
             (Nat.ltb_spec (p mod 8) (p / 8 + S d)); try lia. cbn [andb].
           destruct (Nat.ltb_spec ((p - 7 * d) / 8) ((p - 7 * d) mod 8 + d)),
             (Nat.ltb_spec ((p - 7 * d) mod 8) ((p - 7 * d) / 8 + d)); try lia. cbn [andb].
           replace (p - 7 * d + 7 * d) with p by lia. replace (8 * (p mod 8) + p / 8) with (p - 7 * d) by lia.
           destruct (tb w0 p), (tb w0 (p - 7 * d)); reflexivity.
        -- cbn [andb]. rewrite xorb_false_r.
           destruct (Nat.eqb_spec (p mod 8) (p / 8 + d)) as [E2|E2].
           ++ destruct (Nat.ltb_spec (p mod 8) (p / 8 + d)), (Nat.ltb_spec (p / 8) (p mod 8 + S d)),
                (Nat.ltb_spec (p mod 8) (p / 8 + S d)); try lia. rewrite andb_false_r. cbn [andb].
              replace (8 * (p mod 8) + p / 8) with (p + 7 * d) by lia.
              destruct (tb w0 p), (tb w0 (p + 7 * d)); reflexivity.
           ++ cbn [andb]. rewrite xorb_false_r.
              destruct (Nat.ltb_spec (p / 8) (p mod 8 + d)), (Nat.ltb_spec (p mod 8) (p / 8 + d)), (Nat.ltb_spec (p / 8) (p mod 8 + S d)),
                (Nat.ltb_spec (p mod 8) (p / 8 + S d)); try lia; reflexivity.
      * cbn [andb]. rewrite xorb_false_r.
        destruct (Nat.eqb_spec (p mod 8) (p / 8 + d)) as [E2|E2].
        -- destruct (Nat.ltb_spec (p mod 8) (p / 8 + d)), (Nat.ltb_spec (p / 8) (p mod 8 + S d)),
             (Nat.ltb_spec (p mod 8) (p / 8 + S d)); try lia. rewrite andb_false_r. cbn [andb].
           replace (8 * (p mod 8) + p / 8) with (p + 7 * d) by lia.
           destruct (tb w0 p), (tb w0 (p + 7 * d)); reflexivity.
        -- cbn [andb]. rewrite xorb_false_r.
           destruct (Nat.ltb_spec (p / 8) (p mod 8 + d)), (Nat.ltb_spec (p mod 8) (p / 8 + d)), (Nat.ltb_spec (p / 8) (p mod 8 + S d)),
             (Nat.ltb_spec (p mod 8) (p / 8 + S d)); try lia; reflexivity.
  - intros [[w w7] mask] [_ [_ [_ Hw]]].
    apply (wp_collect _ _ (fun c x => forall i, tb x i = Nat.ltb i n && tb (rw ws i) c)).
    + intros c l Hc. apply wp_bind, wp_shr; [lia|]. intros y Hy. apply wp_ok. eexists. split; [reflexivity|].
      intros i. change 255%N with (N.ones (N.of_nat 8)). rewrite tb_land, Hy, tb_ones.
      destruct (Nat.ltb_spec i 8); [|destruct (Nat.ltb_spec i n); [lia|apply andb_false_r]].
      rewrite andb_true_r, Hw by lia.
      replace ((i + 8 * c) / 8) with c by lia. replace ((i + 8 * c) mod 8) with i by lia.
      destruct (Nat.ltb_spec c (i + D)) as [H1|H1], (Nat.ltb_spec i (c + D)) as [H2|H2]; cbn [andb].
      * rewrite Hw0. replace ((8 * i + c) / 8) with i by lia. replace ((8 * i + c) mod 8) with c by lia. reflexivity.
      * rewrite Hw0. replace ((i + 8 * c) / 8) with c by lia. replace ((i + 8 * c) mod 8) with i by lia.
        rewrite HW by (unfold D in *; lia). rewrite andb_false_r. destruct (Nat.ltb_spec i n); [unfold D in *; lia|reflexivity].
      * unfold D in *; lia.
      * unfold D in *; lia.
    + intros l HLl Hl. apply HQ. split; [exact HLl|]. intros c i Hc. apply Hl. exact Hc.
Qed.

(** ** Collecting rows in [A] words, [U] bits for each row *)
Lemma collect_rows_ok : forall A U n ws (Q : list N -> Prop), 0 < A -> 0 < U -> wm n U ws ->
  (forall i, i < n -> U * (i / A) + U <= 64) ->
  (forall t, length t = A -> (forall a p, a < A -> tb (rw t a) p =
      Nat.ltb p 64 && Nat.ltb (A * (p / U) + a) n && tb (rw ws (A * (p / U) + a)) (p mod U)) -> Q t) ->
  wp (for_up 0 n (fun i t =>
         x <- aget ws i ;; y <- shl x (U * (i / A)) ;;
         z <- aget t (i mod A) ;; aset t (i mod A) (N.lor z y)) (repeat 0%N A)) Q.
Proof.
  intros A U n ws Q HA HU [HL HW] H64 HQ.
  apply (wp_for_up _ (fun i t => length t = A /\ forall a p, a < A -> tb (rw t a) p =
      Nat.ltb p 64 && Nat.ltb (A * (p / U) + a) i && tb (rw ws (A * (p / U) + a)) (p mod U))); [lia| | |].
  - split; [apply repeat_length|]. intros a p _. rewrite rw_repeat, tb_0, andb_false_r. reflexivity.
  - intros i t _ Hi [HLt Ht]. apply wp_bind, (wp_aget _ _ _ 0%N); [lia|]. fold (rw ws i).
    specialize (H64 i Hi). assert (Hm : i mod A < A) by (apply Nat.mod_upper_bound; lia).
    pose proof (Nat.div_mod i A ltac:(lia)) as Hdm.
    apply wp_bind, wp_shl; [lia|]. intros y Hy. apply wp_bind, (wp_aget _ _ _ 0%N); [lia|]. fold (rw t (i mod A)).
    apply wp_aset; [lia|]. split; [rewrite length_upd; exact HLt|]. intros a p Ha. rewrite rw_upd by lia.
    pose proof (Nat.div_mod p U ltac:(lia)) as Hpm.
    assert (Hpu : p mod U < U) by (apply Nat.mod_upper_bound; lia).
    destruct (Nat.eqb_spec a (i mod A)) as [->|Ne].
    + rewrite tb_lor, Ht, Hy by exact Hm. set (pd := p / U) in *. set (id := i / A) in *.
      destruct (Nat.ltb_spec p 64); [|rewrite andb_false_r; reflexivity]. rewrite andb_true_r. cbn [andb].
      destruct (Nat.lt_trichotomy pd id) as [H1|[H1|H1]].
      * destruct (Nat.leb_spec (U * id) p); [nia|]. cbn [andb]. rewrite orb_false_r.
        destruct (Nat.ltb_spec (A * pd + i mod A) i), (Nat.ltb_spec (A * pd + i mod A) (S i)); try nia; reflexivity.
      * destruct (Nat.leb_spec (U * id) p); [|nia].
        destruct (Nat.ltb_spec (A * pd + i mod A) i), (Nat.ltb_spec (A * pd + i mod A) (S i)); try nia.
        cbn [andb orb]. replace (A * pd + i mod A) with i by nia. f_equal. nia.
      * destruct (Nat.ltb_spec (A * pd + i mod A) i), (Nat.ltb_spec (A * pd + i mod A) (S i)); try nia.
        cbn [andb orb]. destruct (Nat.leb_spec (U * id) p); [|reflexivity]. apply HW. nia.
    + rewrite Ht by exact Ha. f_equal. f_equal.
      destruct (Nat.ltb_spec (A * (p / U) + a) i), (Nat.ltb_spec (A * (p / U) + a) (S i)); try lia; try reflexivity.
      exfalso. assert (E : A * (p / U) + a = i) by lia. apply Ne. rewrite <- E.
      apply (Nat.mod_unique _ _ (p / U)); [exact Ha|reflexivity].
  - intros t [HLt Ht]. apply HQ; assumption.
Qed.

(** ** At most 32 *)
Lemma le32_ok : forall n m ws (Q : list N -> Prop), n <= 32 -> m <= 32 -> wm n m ws ->
  (forall l, trans n m ws l -> Q l) -> wp (transpose_le32 n m ws) Q.
Proof.
  intros n m ws Q Hn Hm [HL HW] HQ. unfold transpose_le32.
  apply wp_bind, collect_rows_ok; [lia|lia| | |].
  - split; [exact HL|]. intros i b Hb. apply HW. lia.
  - intros i Hi. lia.
  - intros t HLt Ht. apply wp_bind, nxj_ok; [lia| | |].
    + change (2 ^ Nat.log2_up 16) with 16. lia.
    + intros k b Hb. destruct (Nat.lt_ge_cases k 16); [|rewrite rw_over by lia; apply tb_0].
      rewrite Ht by assumption. destruct (Nat.ltb_spec b 64); [lia|reflexivity].
    + change (2 ^ Nat.log2_up 16) with 16. intros t' HL' HW' H'.
      apply (wp_collect _ _ (fun c x => forall i, tb x i = Nat.ltb i n && tb (rw ws i) c)).
      * intros c l Hc. apply wp_bind, (wp_aget _ _ _ 0%N); [lia|]. fold (rw t' (c mod 16)).
        apply wp_bind, wp_shr; [lia|]. intros y Hy. apply wp_bind, wp_shr; [lia|]. intros z Hz.
        apply wp_ok. eexists. split; [reflexivity|]. intros i.
        assert (Emask : forall b, tb 4294901760 b = Nat.leb 16 b && Nat.ltb b 32).
        { intros b. change 4294901760%N with (N.ldiff (N.ones (N.of_nat 32)) (N.ones (N.of_nat 16))).
          rewrite tb_ldiff, !tb_ones, andb_comm. f_equal.
          destruct (Nat.ltb_spec b 16), (Nat.leb_spec 16 b); try lia; reflexivity. }
        change 65535%N with (N.ones (N.of_nat 16)).
        rewrite tb_lor, !tb_land, Hy, Hz, Emask, tb_ones.
        destruct (Nat.lt_ge_cases i 16) as [Hi|Hi].
        -- destruct (Nat.leb_spec 16 i), (Nat.ltb_spec i 16); try lia. cbn [andb]. rewrite andb_false_r, andb_true_r, orb_false_r.
           rewrite H' by lia. rewrite Ht by lia. destruct (Nat.ltb_spec (16 * ((i + 16 * (c / 16)) / 16) + c mod 16) 64); [|lia].
           cbn [andb].
           replace (16 * ((16 * ((i + 16 * (c / 16)) / 16) + c mod 16) / 32) + (i + 16 * (c / 16)) mod 16) with i by lia.
           replace ((16 * ((i + 16 * (c / 16)) / 16) + c mod 16) mod 32) with c by lia. reflexivity.
        -- destruct (Nat.leb_spec 16 i), (Nat.ltb_spec i 16); try lia. cbn [andb]. rewrite andb_false_r, orb_false_l.
           destruct (Nat.ltb_spec i 32); [|rewrite andb_false_r; destruct (Nat.ltb_spec i n); [lia|reflexivity]].
           rewrite andb_true_r. rewrite H' by lia. rewrite Ht by lia.
           destruct (Nat.ltb_spec (16 * ((i + (16 * (c / 16) + 16)) / 16) + c mod 16) 64); [|lia].
           cbn [andb].
           replace (16 * ((16 * ((i + (16 * (c / 16) + 16)) / 16) + c mod 16) / 32) + (i + (16 * (c / 16) + 16)) mod 16) with i by lia.
           replace ((16 * ((i + (16 * (c / 16) + 16)) / 16) + c mod 16) mod 32) with c by lia. reflexivity.
      * intros l HLl Hl. apply HQ. split; [exact HLl|]. intros c i Hc. apply Hl. exact Hc.
Qed.
