(** Transposition of small matrices in words, ModelM4ri2.v *)
From Coq Require Import Arith NArith ZArith List Bool Lia ZifyNat.
From Verif Require Import Base Spec ModelM4ri SpecM4ri M4ri1 ModelM4ri2.
Import ListNotations.
Local Open Scope nat_scope.
#[local] Ltac Zify.zify_post_hook ::= Z.to_euclidean_division_equations.

(** All words of 64 bits *)
Definition w64 (t : list N) : Prop := forall k b, 64 <= b -> tb (rw t k) b = false.
Definition maskok (j : nat) (m : N) : Prop := forall p, p < 64 -> tb m p = Nat.even (p / j).

Lemma odd_even : forall n, Nat.odd n = negb (Nat.even n).
Proof. intros n. reflexivity. Qed.
Lemma even_S_iff : forall n, Nat.even (S n) = negb (Nat.even n).
Proof. intros n. rewrite Nat.even_succ. apply odd_even. Qed.
Lemma even_mod : forall n, Nat.even n = Nat.eqb (n mod 2) 0.
Proof.
  intros n. destruct (Nat.even n) eqn:E.
  - apply Nat.even_spec in E. destruct E as [k ->]. symmetry. apply Nat.eqb_eq. lia.
  - assert (H : Nat.odd n = true) by (rewrite odd_even, E; reflexivity).
    apply Nat.odd_spec in H. destruct H as [k ->]. symmetry. apply Nat.eqb_neq. lia.
Qed.

(** Position written as 2 j a + j b + c *)
Lemma dec2 : forall j r, 0 < j -> exists a b c, r = 2 * j * a + j * b + c /\ b < 2 /\ c < j.
Proof.
  intros j r Hj. exists (r / j / 2), ((r / j) mod 2), (r mod j).
  split; [|split; [apply Nat.mod_upper_bound; lia|apply Nat.mod_upper_bound; lia]].
  pose proof (Nat.div_mod r j ltac:(lia)) as H1. pose proof (Nat.div_mod (r / j) 2 ltac:(lia)) as H2.
  rewrite H2 in H1 at 1. rewrite H1 at 1. ring.
Qed.
Lemma dec_div : forall j a b c, 0 < j -> b < 2 -> c < j -> (2 * j * a + j * b + c) / j = 2 * a + b.
Proof. intros j a b c Hj Hb Hc. symmetry. apply (Nat.div_unique _ _ _ c); [exact Hc|ring]. Qed.
Lemma dec_mod : forall j a b c, 0 < j -> b < 2 -> c < j -> (2 * j * a + j * b + c) mod j = c.
Proof. intros j a b c Hj Hb Hc. symmetry. apply (Nat.mod_unique _ _ (2 * a + b)); [exact Hc|ring]. Qed.
Lemma dec_bit : forall a b, b < 2 -> (2 * a + b) mod 2 = b.
Proof. intros a b Hb. lia. Qed.
Lemma dec_div2 : forall j a b c, 0 < j -> b < 2 -> c < j -> (2 * j * a + j * b + c) / (2 * j) = a.
Proof.
  intros j a b c Hj Hb Hc. symmetry. apply (Nat.div_unique _ _ _ (j * b + c)); [|ring].
  assert (b = 0 \/ b = 1) as [-> | ->] by lia; lia.
Qed.
Lemma dec_mod2 : forall j a b c, 0 < j -> b < 2 -> c < j -> (2 * j * a + j * b + c) mod (2 * j) = j * b + c.
Proof.
  intros j a b c Hj Hb Hc. symmetry. apply (Nat.mod_unique _ _ a); [|ring].
  assert (b = 0 \/ b = 1) as [-> | ->] by lia; lia.
Qed.

(** The exchange of bit log j between row and column number *)
Definition srow (j r p : nat) : nat := r + j * ((p / j) mod 2) - j * ((r / j) mod 2).

Lemma srow_dec : forall j a b c a' b' c', 0 < j -> b < 2 -> c < j -> b' < 2 -> c' < j ->
  srow j (2 * j * a + j * b + c) (2 * j * a' + j * b' + c') = 2 * j * a + j * b' + c.
Proof.
  intros j a b c a' b' c' Hj Hb Hc Hb' Hc'. unfold srow. rewrite !dec_div, !dec_bit by assumption. lia.
Qed.

Lemma swap_bits_ok : forall j m k t (Q : list N -> Prop),
  0 < j -> j < 64 -> maskok j m -> w64 t -> k + j < length t -> (exists g i, i < j /\ k = 2 * j * g + i) ->
  (forall t', length t' = length t -> w64 t' ->
     (forall r p, p < 64 -> tb (rw t' r) p = if Nat.eqb r k || Nat.eqb r (k + j)
        then tb (rw t (srow j r p)) (srow j p r) else tb (rw t r) p) -> Q t') ->
  wp (swap_bits j m k t) Q.
Proof.
  intros j m k t Q Hj0 Hj HM HW HL [g [i0 [Hi0 Hk]]] HQ. unfold swap_bits.
  apply wp_bind, (wp_aget _ _ _ 0%N); [lia|]. apply wp_bind, (wp_aget _ _ _ 0%N); [lia|].
  fold (rw t k) (rw t (k + j)). apply wp_bind, wp_shr; [exact Hj|]. intros s Hs. cbv zeta.
  set (x := N.land (N.lxor s (rw t (k + j))) m).
  apply wp_bind, wp_shl; [exact Hj|]. intros y Hy.
  apply wp_bind, wp_aset; [lia|]. apply wp_aset; [rewrite length_upd; lia|].
  assert (Hx : forall p, p < 64 -> tb x p = xorb (tb (rw t k) (p + j)) (tb (rw t (k + j)) p) && Nat.even (p / j)).
  { intros p Hp. unfold x. rewrite tb_land, tb_lxor, Hs, HM by exact Hp. reflexivity. }
  assert (Hx64 : forall p, 64 <= p -> tb x p = false).
  { intros p Hp. unfold x. rewrite tb_land, tb_lxor, Hs, !HW by lia. reflexivity. }
  apply HQ; [rewrite !length_upd; reflexivity| |].
  - intros r b Hb. rewrite rw_upd by (rewrite length_upd; lia). rewrite rw_upd by lia.
    destruct (Nat.eqb_spec r (k + j)); [rewrite tb_lxor, HW, Hx64 by lia; reflexivity|].
    destruct (Nat.eqb_spec r k); [|apply HW; lia].
    rewrite tb_lxor, Hy, HW by lia. destruct (Nat.ltb_spec b 64); [lia|]. rewrite andb_false_r. reflexivity.
  - intros r p Hp. rewrite rw_upd by (rewrite length_upd; lia). rewrite rw_upd by lia.
    destruct (dec2 j p Hj0) as [a' [b' [c' [Ep [Hb' Hc']]]]].
    destruct (Nat.eqb_spec r (k + j)) as [->|Hr1].
    + rewrite orb_true_r. assert (Er : k + j = 2 * j * g + j * 1 + i0) by lia.
      rewrite tb_lxor, Hx by exact Hp. rewrite Er, Ep, !srow_dec by lia. rewrite dec_div by lia.
      rewrite even_mod, dec_bit by exact Hb'.
      assert (b' = 0 \/ b' = 1) as [-> | ->] by lia.
      * replace (2 * j * g + j * 0 + i0) with k by lia. replace (2 * j * g + j * 1 + i0) with (k + j) by lia.
        replace (2 * j * a' + j * 1 + c') with (2 * j * a' + j * 0 + c' + j) by lia.
        cbn [Nat.eqb]. rewrite andb_true_r. destruct (tb _ _), (tb _ _); reflexivity.
      * cbn [Nat.eqb]. rewrite andb_false_r, xorb_false_r. f_equal.
    + rewrite orb_false_r. destruct (Nat.eqb_spec r k) as [->|Hr2]; [|reflexivity].
      rewrite tb_lxor, Hy. replace (Nat.ltb p 64) with true by (symmetry; apply Nat.ltb_lt; lia).
      rewrite andb_true_r. assert (Er : k = 2 * j * g + j * 0 + i0) by lia.
      rewrite Er, Ep, !srow_dec by lia.
      assert (b' = 0 \/ b' = 1) as [-> | ->] by lia.
      * destruct (Nat.leb_spec j (2 * j * a' + j * 0 + c')).
        -- rewrite Hx by lia.
           assert (Ea : 2 * j * a' + j * 0 + c' - j = 2 * j * (a' - 1) + j * 1 + c').
           { destruct a'; [lia|]. replace (S a' - 1) with a' by lia. lia. }
           rewrite Ea, dec_div by lia. rewrite even_mod, dec_bit by lia. cbn [Nat.eqb]. rewrite !andb_false_r.
           apply xorb_false_r.
        -- cbn [andb]. apply xorb_false_r.
      * replace (Nat.leb j (2 * j * a' + j * 1 + c')) with true by (symmetry; apply Nat.leb_le; lia).
        cbn [andb]. rewrite Hx by lia.
        assert (Ea : 2 * j * a' + j * 1 + c' - j = 2 * j * a' + j * 0 + c') by lia.
        rewrite Ea, dec_div by lia. rewrite even_mod, dec_bit by lia. cbn [Nat.eqb]. rewrite andb_true_r.
        replace (2 * j * a' + j * 0 + c' + j) with (2 * j * a' + j * 1 + c') by lia.
        replace (2 * j * g + j * 1 + i0) with (k + j) by lia.
        rewrite <- ?Er.
        destruct (tb _ _), (tb _ _); reflexivity.
Qed.

Lemma swap_level_ok : forall n j m t (Q : list N -> Prop),
  0 < j -> (exists q, 64 = 2 * j * q) -> maskok j m -> w64 t -> 2 * j * ((n + 2 * j - 1) / (2 * j)) <= length t ->
  (forall t', length t' = length t -> w64 t' ->
     (forall r p, p < 64 -> tb (rw t' r) p = if Nat.ltb r (2 * j * ((n + 2 * j - 1) / (2 * j)))
        then tb (rw t (srow j r p)) (srow j p r) else tb (rw t r) p) -> Q t') ->
  wp (swap_level n j m t) Q.
Proof.
  intros n j m t Q Hj0 [q Hq] HM HW HL HQ. unfold swap_level.
  assert (Hj : j < 64) by (destruct q; nia). set (G := (n + 2 * j - 1) / (2 * j)) in *.
  apply (wp_for_up _ (fun g t' => length t' = length t /\ w64 t' /\
    forall r p, p < 64 -> tb (rw t' r) p = if Nat.ltb r (2 * j * g)
        then tb (rw t (srow j r p)) (srow j p r) else tb (rw t r) p)); [lia| | |].
  - split; [reflexivity|]. split; [exact HW|]. intros r p Hp. rewrite Nat.mul_0_r. reflexivity.
  - intros g t1 _ Hg [HL1 [HW1 H1]].
    assert (HG : 2 * j * g + 2 * j <= 2 * j * G) by nia.
    apply (wp_for_up _ (fun i t' => length t' = length t /\ w64 t' /\
      forall r p, p < 64 -> tb (rw t' r) p =
        if Nat.ltb r (2 * j * g) || (Nat.leb (2 * j * g) r && Nat.ltb r (2 * j * g + i)) ||
           (Nat.leb (2 * j * g + j) r && Nat.ltb r (2 * j * g + j + i))
        then tb (rw t (srow j r p)) (srow j p r) else tb (rw t r) p)); [lia| | |].
    + split; [exact HL1|]. split; [exact HW1|]. intros r p Hp. rewrite H1 by exact Hp.
      destruct (Nat.ltb_spec r (2 * j * g)), (Nat.leb_spec (2 * j * g) r), (Nat.ltb_spec r (2 * j * g + 0)),
        (Nat.leb_spec (2 * j * g + j) r), (Nat.ltb_spec r (2 * j * g + j + 0)); try lia; reflexivity.
    + intros i t2 _ Hi [HL2 [HW2 H2]].
      apply swap_bits_ok; auto; [lia|exists g, i; auto|].
      intros t3 HL3 HW3 H3. split; [lia|]. split; [exact HW3|]. intros r p Hp. rewrite H3 by exact Hp.
      destruct (Nat.eqb_spec r (2 * j * g + i)) as [Er|Nr1].
      * cbn [orb].
        replace (Nat.leb (2 * j * g) r && Nat.ltb r (2 * j * g + S i)) with true
          by (symmetry; apply andb_true_intro; split; [apply Nat.leb_le|apply Nat.ltb_lt]; lia).
        rewrite orb_true_r. cbn [orb].
        destruct (dec2 j p Hj0) as [a' [b' [c' [Ep [Hb' Hc']]]]].
        assert (Er' : r = 2 * j * g + j * 0 + i) by lia. rewrite Er', Ep, !srow_dec by lia.
        rewrite H2 by (assert (a' < q) by nia; nia).
        replace (Nat.ltb (2 * j * g + j * b' + i) (2 * j * g)) with false by (symmetry; apply Nat.ltb_ge; lia).
        assert (b' = 0 \/ b' = 1) as [-> | ->] by lia.
        -- destruct (Nat.leb_spec (2 * j * g) (2 * j * g + j * 0 + i)), (Nat.ltb_spec (2 * j * g + j * 0 + i) (2 * j * g + i)),
             (Nat.leb_spec (2 * j * g + j) (2 * j * g + j * 0 + i)); try lia. reflexivity.
        -- destruct (Nat.leb_spec (2 * j * g) (2 * j * g + j * 1 + i)), (Nat.ltb_spec (2 * j * g + j * 1 + i) (2 * j * g + i)),
             (Nat.leb_spec (2 * j * g + j) (2 * j * g + j * 1 + i)),
             (Nat.ltb_spec (2 * j * g + j * 1 + i) (2 * j * g + j + i)); try lia. reflexivity.
      * destruct (Nat.eqb_spec r (2 * j * g + i + j)) as [Er|Nr2].
        -- cbn [orb].
           replace (Nat.leb (2 * j * g + j) r && Nat.ltb r (2 * j * g + j + S i)) with true
             by (symmetry; apply andb_true_intro; split; [apply Nat.leb_le|apply Nat.ltb_lt]; lia).
           rewrite orb_true_r.
           destruct (dec2 j p Hj0) as [a' [b' [c' [Ep [Hb' Hc']]]]].
           assert (Er' : r = 2 * j * g + j * 1 + i) by lia. rewrite Er', Ep, !srow_dec by lia.
           rewrite H2 by (assert (a' < q) by nia; nia).
           replace (Nat.ltb (2 * j * g + j * b' + i) (2 * j * g)) with false by (symmetry; apply Nat.ltb_ge; lia).
           assert (b' = 0 \/ b' = 1) as [-> | ->] by lia.
           ++ destruct (Nat.leb_spec (2 * j * g) (2 * j * g + j * 0 + i)), (Nat.ltb_spec (2 * j * g + j * 0 + i) (2 * j * g + i)),
             (Nat.leb_spec (2 * j * g + j) (2 * j * g + j * 0 + i)); try lia. reflexivity.
           ++ destruct (Nat.leb_spec (2 * j * g) (2 * j * g + j * 1 + i)), (Nat.ltb_spec (2 * j * g + j * 1 + i) (2 * j * g + i)),
             (Nat.leb_spec (2 * j * g + j) (2 * j * g + j * 1 + i)),
             (Nat.ltb_spec (2 * j * g + j * 1 + i) (2 * j * g + j + i)); try lia. reflexivity.
        -- cbn [orb]. rewrite H2 by exact Hp.
           destruct (Nat.ltb_spec r (2 * j * g)), (Nat.leb_spec (2 * j * g) r), (Nat.ltb_spec r (2 * j * g + i)),
             (Nat.ltb_spec r (2 * j * g + S i)), (Nat.leb_spec (2 * j * g + j) r),
             (Nat.ltb_spec r (2 * j * g + j + i)), (Nat.ltb_spec r (2 * j * g + j + S i)); try lia; reflexivity.
    + intros t2 [HL2 [HW2 H2]]. split; [exact HL2|]. split; [exact HW2|]. intros r p Hp. rewrite H2 by exact Hp.
      destruct (Nat.ltb_spec r (2 * j * g)), (Nat.leb_spec (2 * j * g) r), (Nat.ltb_spec r (2 * j * g + j)),
        (Nat.leb_spec (2 * j * g + j) r), (Nat.ltb_spec r (2 * j * g + j + j)), (Nat.ltb_spec r (2 * j * S g)); try lia; reflexivity.
  - intros t1 [HL1 [HW1 H1]]. apply HQ; assumption.
Qed.
