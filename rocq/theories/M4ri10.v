(** Transposition of words: the networks of exchanges, ModelM4ri2.v *)
From Coq Require Import Arith NArith ZArith List Bool Lia ZifyNat.
From Verif Require Import Base Spec ModelM4ri SpecM4ri M4ri1 ModelM4ri2 M4ri9.
Import ListNotations.
Local Open Scope nat_scope.
#[local] Ltac Zify.zify_post_hook ::= Z.to_euclidean_division_equations.

Definition maskb (j : nat) (m : N) : bool :=
  forallb (fun p => Bool.eqb (tb m p) (Nat.even (p / j))) (seq 0 64).
Lemma maskb_ok : forall j m, maskb j m = true -> maskok j m.
Proof.
  intros j m H p Hp. unfold maskb in H. rewrite forallb_forall in H.
  apply eqb_prop, H, in_seq. lia.
Qed.
Lemma mask_ok : forall mi, mi < 6 -> maskok (2 ^ mi) (nth mi transpose_mask 0%N).
Proof.
  intros mi H. apply maskb_ok.
  do 6 (destruct mi as [|mi]; [vm_compute; reflexivity|]). lia.
Qed.
Lemma pow_div64 : forall mi, mi < 6 -> exists q, 64 = 2 * 2 ^ mi * q.
Proof.
  intros mi H. exists (2 ^ (5 - mi)). do 6 (destruct mi as [|mi]; [reflexivity|]). lia.
Qed.
Lemma pow_pos : forall n, 0 < 2 ^ n.
Proof. intros n. induction n; cbn [Nat.pow]; lia. Qed.

(** The exchanges with j = 32, 16, ..., 1 *)
Lemma transpose_64_ok : forall t (Q : list N -> Prop), length t = 64 -> w64 t ->
  (forall t', length t' = 64 -> w64 t' ->
     (forall r p, r < 64 -> p < 64 -> tb (rw t' r) p = tb (rw t p) r) -> Q t') ->
  wp (transpose_64 t) Q.
Proof.
  intros t Q HL HW HQ. unfold transpose_64.
  set (ms := [0x00000000FFFFFFFF; 0x0000FFFF0000FFFF; 0x00FF00FF00FF00FF; 0x0F0F0F0F0F0F0F0F;
              0x3333333333333333; 0x5555555555555555; 0]%N).
  apply wp_bind, (wp_for_up _ (fun s '(t', m) => m = nth s ms 0%N /\ length t' = 64 /\ w64 t' /\
    forall r p, r < 64 -> p < 64 -> tb (rw t' r) p =
      tb (rw t (2 ^ (6 - s) * (p / 2 ^ (6 - s)) + r mod 2 ^ (6 - s)))
         (2 ^ (6 - s) * (r / 2 ^ (6 - s)) + p mod 2 ^ (6 - s)))); [lia| | |].
  - split; [reflexivity|]. split; [exact HL|]. split; [exact HW|]. intros r p Hr Hp.
    change (2 ^ (6 - 0)) with 64. rewrite (Nat.div_small p), (Nat.mod_small r), (Nat.div_small r), (Nat.mod_small p) by lia.
    reflexivity.
  - intros s [t1 m] _ Hs [Hm [HL1 [HW1 H1]]]. cbv zeta.
    assert (Hj0 : 0 < 2 ^ (5 - s)) by apply pow_pos.
    assert (HJ : 2 ^ (6 - s) = 2 * 2 ^ (5 - s)).
    { replace (6 - s) with (S (5 - s)) by lia. reflexivity. }
    destruct (pow_div64 (5 - s) ltac:(lia)) as [q Hq].
    assert (HG : (64 + 2 * 2 ^ (5 - s) - 1) / (2 * 2 ^ (5 - s)) = q).
    { symmetry. apply (Nat.div_unique _ _ _ (2 * 2 ^ (5 - s) - 1)); lia. }
    apply wp_bind, swap_level_ok; auto.
    + exists q. exact Hq.
    + rewrite Hm. replace (nth s ms 0%N) with (nth (5 - s) transpose_mask 0%N); [apply mask_ok; lia|].
      clear - Hs. do 6 (destruct s as [|s]; [reflexivity|]). lia.
    + rewrite HG, HL1, <- Hq. lia.
    + intros t2 HL2 HW2 H2. rewrite HG, <- Hq in H2.
      apply wp_bind. apply (wp_of_eq _ _ _ (N.land (N.shiftl m (N.of_nat (2 ^ (5 - s) / 2))) ffff)).
      { unfold shl. replace (Nat.ltb (2 ^ (5 - s) / 2) 64) with true; [reflexivity|].
        symmetry. apply Nat.ltb_lt. destruct q; [lia|]. nia. }
      split; [|split; [lia|split; [exact HW2|]]].
      { rewrite Hm. clear - Hs. do 6 (destruct s as [|s]; [vm_compute; reflexivity|]). lia. }
      intros r p Hr Hp. rewrite H2 by exact Hp. destruct (Nat.ltb_spec r 64); [|lia].
      replace (6 - S s) with (5 - s) by lia. set (j := 2 ^ (5 - s)) in *.
      destruct (dec2 j p Hj0) as [a' [b' [c' [Ep [Hb' Hc']]]]].
      destruct (dec2 j r Hj0) as [a [b [c [Er [Hb Hc]]]]].
      rewrite Er, Ep, !srow_dec by lia. rewrite H1.
      * rewrite HJ, !dec_div, !dec_mod, !dec_div2, !dec_mod2 by lia.
        f_equal; [f_equal|]; ring.
      * assert (a < q) by nia. nia.
      * assert (a' < q) by nia. nia.
  - intros [t1 m] [_ [HL1 [HW1 H1]]]. apply HQ; auto. intros r p Hr Hp. rewrite H1 by assumption.
    change (2 ^ (6 - 6)) with 1. rewrite !Nat.div_1_r, !Nat.mod_1_r, !Nat.mul_1_l, !Nat.add_0_r. reflexivity.
Qed.

(** The exchanges with j = 1, 2, 4, ... on n rows *)
Lemma log2_up_32 : forall n, n <= 32 -> Nat.log2_up n <= 5.
Proof. intros n H. change 5 with (Nat.log2_up 32). apply Nat.log2_up_le_mono. exact H. Qed.
Lemma log2_up_ge : forall n, n <= 2 ^ Nat.log2_up n.
Proof.
  intros n. destruct (Nat.le_gt_cases n 1); [|apply Nat.log2_log2_up_spec; lia].
  pose proof (pow_pos (Nat.log2_up n)). lia.
Qed.

Lemma nxj_ok : forall n t (Q : list N -> Prop), n <= 32 -> 2 ^ Nat.log2_up n <= length t -> w64 t ->
  (forall t', length t' = length t -> w64 t' ->
     (forall r p, r < 2 ^ Nat.log2_up n -> p < 64 -> p mod 2 ^ Nat.log2_up n < n ->
        tb (rw t' r) p = tb (rw t (p mod 2 ^ Nat.log2_up n))
                            (2 ^ Nat.log2_up n * (p / 2 ^ Nat.log2_up n) + r)) -> Q t') ->
  wp (transpose_nxj n t) Q.
Proof.
  intros n t Q Hn HL HW HQ. unfold transpose_nxj, nxj_log.
  pose proof (log2_up_32 n Hn) as H5. set (l := Nat.log2_up n) in *.
  apply (wp_for_up _ (fun mi t' => length t' = length t /\ w64 t' /\
    forall r p, p < 64 -> 2 ^ mi * (r / 2 ^ mi) + p mod 2 ^ mi < n -> tb (rw t' r) p =
      tb (rw t (2 ^ mi * (r / 2 ^ mi) + p mod 2 ^ mi)) (2 ^ mi * (p / 2 ^ mi) + r mod 2 ^ mi))); [lia| | |].
  - split; [reflexivity|]. split; [exact HW|]. intros r p Hp _.
    change (2 ^ 0) with 1. rewrite !Nat.div_1_r, !Nat.mod_1_r, !Nat.mul_1_l, !Nat.add_0_r. reflexivity.
  - intros mi t1 _ Hmi [HL1 [HW1 H1]].
    apply wp_bind, (wp_aget _ _ _ 0%N); [change (length transpose_mask) with 6; lia|].
    pose proof (pow_pos mi) as Hj0. destruct (pow_div64 mi ltac:(lia)) as [q Hq].
    assert (HJ : 2 ^ S mi = 2 * 2 ^ mi) by reflexivity.
    assert (HE : 2 ^ l = 2 * 2 ^ mi * 2 ^ (l - S mi)).
    { rewrite <- HJ, <- Nat.pow_add_r. f_equal. lia. }
    pose proof (log2_up_ge n) as HnJ. fold l in HnJ.
    apply swap_level_ok; auto.
    + exists q. exact Hq.
    + apply mask_ok. lia.
    + rewrite HL1. apply Nat.le_trans with (2 ^ l); [|exact HL]. rewrite HE. apply Nat.mul_le_mono_l.
      assert ((n + 2 * 2 ^ mi - 1) / (2 * 2 ^ mi) < S (2 ^ (l - S mi))); [|lia].
      apply Nat.div_lt_upper_bound; [lia|]. rewrite Nat.mul_succ_r. lia.
    + intros t2 HL2 HW2 H2. split; [lia|]. split; [exact HW2|]. intros r p Hp Hrp.
      rewrite H2 by exact Hp. rewrite HJ in *. set (j := 2 ^ mi) in *.
      destruct (dec2 j p Hj0) as [a' [b' [c' [Ep [Hb' Hc']]]]].
      destruct (dec2 j r Hj0) as [a [b [c [Er [Hb Hc]]]]].
      rewrite Er, Ep in Hrp. rewrite dec_div2, dec_mod2 in Hrp by lia.
      assert (Hlt : r < 2 * j * ((n + 2 * j - 1) / (2 * j))).
      { assert (a < (n + 2 * j - 1) / (2 * j)).
        { apply (Nat.lt_le_trans _ (S a)); [lia|]. apply Nat.div_le_lower_bound; lia. }
        nia. }
      apply Nat.ltb_lt in Hlt. rewrite Hlt. rewrite Er, Ep, !srow_dec by lia. rewrite H1.
      * rewrite !dec_div, !dec_mod, !dec_div2, !dec_mod2 by lia.
        f_equal; [f_equal|]; ring.
      * assert (a' < q) by nia. nia.
      * rewrite dec_div, dec_mod by lia. lia.
  - intros t1 [HL1 [HW1 H1]]. apply HQ; auto. intros r p Hr Hp Hpn. rewrite H1; [|exact Hp|].
    + rewrite (Nat.div_small r), (Nat.mod_small r), Nat.mul_0_r, Nat.add_0_l by exact Hr. reflexivity.
    + rewrite (Nat.div_small r), Nat.mul_0_r by exact Hr. exact Hpn.
Qed.
