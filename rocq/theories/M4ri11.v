(** The transposing functions for blocks of a word, ModelM4ri2.v *)
From Coq Require Import Arith NArith ZArith List Bool Lia ZifyNat.
From Verif Require Import Base Spec ModelM4ri SpecM4ri M4ri1 ModelM4ri2 M4ri9 M4ri10.
Import ListNotations.
Local Open Scope nat_scope.
#[local] Ltac Zify.zify_post_hook ::= Z.to_euclidean_division_equations.

(** [l] are the m words of the transpose of the n words [ws] *)
Definition trans (n m : nat) (ws l : list N) : Prop :=
  length l = m /\ forall c i, c < m -> tb (rw l c) i = Nat.ltb i n && tb (rw ws i) c.
(** [n] words of [m] bits *)
Definition wm (n m : nat) (ws : list N) : Prop :=
  length ws = n /\ forall i b, m <= b -> tb (rw ws i) b = false.

Lemma wm_w64 : forall n m ws, m <= 64 -> wm n m ws -> w64 ws.
Proof. intros n m ws H [_ H1] k b Hb. apply H1. lia. Qed.
Lemma rw_app1 : forall a b i, i < length a -> rw (a ++ b) i = rw a i.
Proof. intros a b i H. unfold rw. apply app_nth1. exact H. Qed.
Lemma rw_app2 : forall a b i, length a <= i -> rw (a ++ b) i = rw b (i - length a).
Proof. intros a b i H. unfold rw. apply app_nth2. exact H. Qed.
Lemma rw_over : forall a i, length a <= i -> rw a i = 0%N.
Proof. intros a i H. unfold rw. apply nth_overflow. exact H. Qed.
Lemma rw_firstn : forall n l i, i < n -> rw (firstn n l) i = rw l i.
Proof.
  intros n l i H. unfold rw. revert l i H. induction n as [|n IH]; intros l i H; [lia|].
  destruct l as [|x l]; [reflexivity|]. destruct i as [|i]; [reflexivity|]. cbn [firstn nth]. apply IH. lia.
Qed.
Lemma rw_skipn : forall n l i, rw (skipn n l) i = rw l (n + i).
Proof.
  intros n l i. unfold rw. revert l. induction n as [|n IH]; intros l; [reflexivity|].
  destruct l as [|x l]; [destruct i; reflexivity|]. cbn [skipn Nat.add nth]. apply IH.
Qed.

Lemma wp_collect : forall m body (P : nat -> N -> Prop) (Q : list N -> Prop),
  (forall c l, c < m -> wp (body c l) (fun l' => exists x, l' = l ++ [x] /\ P c x)) ->
  (forall l, length l = m -> (forall c, c < m -> P c (rw l c)) -> Q l) ->
  wp (for_up 0 m body []) Q.
Proof.
  intros m body P Q HB HQ.
  apply (wp_for_up _ (fun c l => length l = c /\ forall d, d < c -> P d (rw l d))); [lia| | |].
  - split; [reflexivity|]. intros d Hd. lia.
  - intros c l _ Hc [HL HP]. eapply wp_mono; [apply HB; exact Hc|]. intros l' [x [-> Hx]].
    split; [rewrite app_length; cbn [length]; lia|]. intros d Hd.
    destruct (Nat.eq_dec d c) as [->|].
    + rewrite rw_app2 by lia. rewrite HL, Nat.sub_diag. exact Hx.
    + rewrite rw_app1 by lia. apply HP. lia.
  - intros l [HL HP]. apply HQ; assumption.
Qed.

Lemma pad_ok : forall n m ws, n <= 64 -> m <= 64 -> wm n m ws ->
  length (ws ++ repeat 0%N (64 - n)) = 64 /\ w64 (ws ++ repeat 0%N (64 - n)) /\
  (forall i b, tb (rw (ws ++ repeat 0%N (64 - n)) i) b = Nat.ltb i n && tb (rw ws i) b).
Proof.
  intros n m ws Hn Hm [HL HW].
  assert (H : forall i b, tb (rw (ws ++ repeat 0%N (64 - n)) i) b = Nat.ltb i n && tb (rw ws i) b).
  { intros i b. destruct (Nat.ltb_spec i n); [rewrite rw_app1 by lia; reflexivity|].
    rewrite rw_app2 by lia. rewrite rw_repeat, tb_0. reflexivity. }
  split; [rewrite app_length, repeat_length; lia|]. split; [|exact H].
  intros i b Hb. rewrite H, HW by lia. apply andb_false_r.
Qed.

Lemma le64_ok : forall n m ws (Q : list N -> Prop), n <= 64 -> m <= 64 -> wm n m ws ->
  (forall l, trans n m ws l -> Q l) -> wp (transpose_le64 n m ws) Q.
Proof.
  intros n m ws Q Hn Hm HW HQ. unfold transpose_le64.
  destruct (pad_ok n m ws Hn Hm HW) as [H1 [H2 H3]].
  apply wp_bind, transpose_64_ok; auto. intros t HL HW2 H. apply wp_ok, HQ.
  split; [rewrite firstn_length; lia|]. intros c i Hc. rewrite rw_firstn by exact Hc.
  destruct (Nat.lt_ge_cases i 64) as [Hi|Hi]; [rewrite H by lia; apply H3|].
  rewrite HW2 by lia. destruct (Nat.ltb_spec i n); [lia|reflexivity].
Qed.

Lemma lt64x64_ok : forall junk n ws (Q : list N -> Prop), 1 <= n -> n < 64 -> wm n 64 ws ->
  length junk = 64 -> w64 junk ->
  (forall l, trans n 64 ws l -> Q l) -> wp (transpose_lt64x64 junk n ws) Q.
Proof.
  intros junk n ws Q Hn0 Hn HW HLj HWj HQ. unfold transpose_lt64x64. destruct (Nat.ltb_spec 32 n) as [H32|H32].
  - destruct (pad_ok n 64 ws ltac:(lia) ltac:(lia) HW) as [H1 [H2 H3]].
    apply transpose_64_ok; auto. intros t HL HW2 H. apply HQ. split; [exact HL|]. intros c i Hc.
    destruct (Nat.lt_ge_cases i 64) as [Hi|Hi]; [rewrite H by lia; apply H3|].
    rewrite HW2 by lia. destruct (Nat.ltb_spec i n); [lia|reflexivity].
  - pose proof (log2_up_32 n H32) as H5. pose proof (log2_up_ge n) as HJ. unfold nxj_log.
    set (s := Nat.log2_up n) in *.
    assert (HJ64 : exists q, 64 = 2 ^ s * q).
    { exists (2 ^ (6 - s)). rewrite <- Nat.pow_add_r. replace (s + (6 - s)) with 6 by lia. reflexivity. }
    destruct HJ64 as [q Hq]. pose proof (pow_pos s) as HJ0.
    assert (HJle : 2 ^ s <= 32) by (change 32 with (2 ^ 5); apply Nat.pow_le_mono_r; lia).
    pose proof HW as [HWL HWb].
    apply wp_bind, nxj_ok; [exact H32| | |].
    + fold s. rewrite app_length, skipn_length. lia.
    + intros k b Hb. destruct (Nat.lt_ge_cases k n); [rewrite rw_app1 by lia; apply HWb; lia|].
      rewrite rw_app2, rw_skipn by lia. apply HWj. exact Hb.
    + fold s. intros t HL HW2 H. rewrite app_length, skipn_length in HL.
      apply (wp_collect _ _ (fun c x => forall i, tb x i = Nat.ltb i n && tb (rw ws i) c)).
      * intros c l Hc. set (J := 2 ^ s) in *.
        assert (Hcm : c mod J < J) by (apply Nat.mod_upper_bound; lia).
        assert (Hcd : c / J < q) by (apply Nat.div_lt_upper_bound; lia).
        pose proof (Nat.div_mod c J ltac:(lia)) as Hdm.
        apply wp_bind, (wp_aget _ _ _ 0%N); [lia|]. fold (rw t (c mod J)).
        apply wp_bind, wp_shr; [nia|]. intros y Hy. apply wp_ok. eexists. split; [reflexivity|].
        intros i. rewrite tb_land, Hy, tb_left by lia.
        replace (n mod 64) with n by (symmetry; apply Nat.mod_small; lia).
        destruct (Nat.eqb_spec n 0); [lia|]. rewrite andb_comm.
        destruct (Nat.ltb_spec i n); [|reflexivity]. cbn [andb].
        assert (Hmod : (i + J * (c / J)) mod J = i).
        { symmetry. apply (Nat.mod_unique _ _ (c / J)); lia. }
        assert (Hdiv : (i + J * (c / J)) / J = c / J).
        { symmetry. apply (Nat.div_unique _ _ _ i); lia. }
        rewrite H; [|lia|nia|lia]. rewrite Hmod, Hdiv, rw_app1 by lia. f_equal. lia.
      * intros l HLl Hl. apply HQ. split; [exact HLl|]. intros c i Hc. apply Hl. exact Hc.
Qed.

Lemma gather_ok : forall j k ws (Q : N -> Prop), (exists q, 64 = j * q) -> k < j -> wm 64 j ws ->
  (forall x, (forall p, 64 <= p -> tb x p = false) ->
     (forall p, p < 64 -> tb x p = tb (rw ws (k + p / j * j)) (p mod j)) -> Q x) -> wp (gather j k ws) Q.
Proof.
  intros j k ws Q [q Hq] Hk [HL HW] HQ. unfold gather.
  replace (64 / j) with q by (apply (Nat.div_unique _ _ _ 0); lia).
  apply (wp_for_up _ (fun i x => forall p, tb x p = Nat.ltb p 64 && Nat.ltb (p / j) i && tb (rw ws (k + p / j * j)) (p mod j))); [lia| | |].
  - intros p. rewrite tb_0, andb_false_r. reflexivity.
  - intros i x _ Hi Hx. apply wp_bind, (wp_aget _ _ _ 0%N); [nia|]. fold (rw ws (k + i * j)).
    apply wp_bind, wp_shl; [nia|]. intros y Hy. apply wp_ok. intros p. rewrite tb_lor, Hx, Hy.
    pose proof (Nat.div_mod p j ltac:(lia)) as Hdm.
    assert (Hmod : p mod j < j) by (apply Nat.mod_upper_bound; lia).
    destruct (Nat.ltb_spec p 64); [|rewrite andb_false_r; reflexivity]. rewrite andb_true_r. cbn [andb].
    destruct (Nat.lt_trichotomy (p / j) i) as [H1|[H1|H1]].
    + destruct (Nat.ltb_spec (p / j) i), (Nat.ltb_spec (p / j) (S i)), (Nat.leb_spec (j * i) p); try lia; try nia.
      cbn [andb]. apply orb_false_r.
    + rewrite H1. destruct (Nat.ltb_spec i i), (Nat.ltb_spec i (S i)), (Nat.leb_spec (j * i) p); try lia; try nia.
      cbn [andb orb]. f_equal. rewrite H1 in Hdm. lia.
    + destruct (Nat.ltb_spec (p / j) i), (Nat.ltb_spec (p / j) (S i)), (Nat.leb_spec (j * i) p); try lia; try nia.
      cbn [andb orb]. apply HW. nia.
  - intros x Hx. apply HQ.
    + intros p Hp. rewrite Hx. destruct (Nat.ltb_spec p 64); [lia|reflexivity].
    + intros p Hp. rewrite Hx. destruct (Nat.ltb_spec p 64); [|lia].
      assert (p / j < q) by (apply Nat.div_lt_upper_bound; lia).
      destruct (Nat.ltb_spec (p / j) q); [reflexivity|lia].
Qed.

Lemma t64xlt64_ok : forall n ws (Q : list N -> Prop), 1 <= n -> n < 64 -> wm 64 n ws ->
  (forall l, trans 64 n ws l -> Q l) -> wp (transpose_64xlt64 n ws) Q.
Proof.
  intros n ws Q Hn0 Hn HW HQ. unfold transpose_64xlt64. destruct (Nat.ltb_spec 32 n) as [H32|H32].
  - apply wp_bind, transpose_64_ok; [apply HW|apply (wm_w64 64 n); [lia|exact HW]|].
    intros t HL HW2 H. apply wp_ok, HQ. split; [rewrite firstn_length; lia|]. intros c i Hc.
    rewrite rw_firstn by exact Hc. destruct (Nat.ltb_spec i 64); [rewrite H by lia; reflexivity|apply HW2; lia].
  - pose proof (log2_up_32 n H32) as H5. pose proof (log2_up_ge n) as HJ.
    assert (HlJ : Nat.log2_up (2 ^ Nat.log2_up n) = Nat.log2_up n) by (apply Nat.log2_up_pow2; lia).
    set (s := Nat.log2_up n) in *. pose proof (pow_pos s) as HJ0.
    assert (HJ64 : exists q, 64 = 2 ^ s * q).
    { exists (2 ^ (6 - s)). rewrite <- Nat.pow_add_r. replace (s + (6 - s)) with 6 by lia. reflexivity. }
    assert (HJle : 2 ^ s <= 32) by (change 32 with (2 ^ 5); apply Nat.pow_le_mono_r; lia).
    set (J := 2 ^ s) in *. pose proof HW as [HWL HWb].
    assert (HWJ : wm 64 J ws) by (split; [exact HWL|intros i b Hb; apply HWb; lia]).
    apply wp_bind, (wp_collect _ _ (fun k x => (forall p, 64 <= p -> tb x p = false) /\
       forall p, p < 64 -> tb x p = tb (rw ws (k + p / J * J)) (p mod J))).
    + intros k l Hk. apply wp_bind, gather_ok; auto. intros x H1 H2. apply wp_ok. exists x. auto.
    + intros t HLt Ht. apply wp_bind, nxj_ok; [lia|rewrite HlJ; fold J; lia| |].
      * intros k b Hb. destruct (Nat.lt_ge_cases k J); [apply Ht; assumption|]. rewrite rw_over by lia. apply tb_0.
      * rewrite HlJ. fold J. intros t' HL' HW' H'. apply wp_ok, HQ.
        split; [rewrite firstn_length; lia|]. intros c i Hc. rewrite rw_firstn by exact Hc.
        destruct (Nat.ltb_spec i 64); [|apply HW'; lia]. cbn [andb].
        pose proof (Nat.div_mod i J ltac:(lia)) as Hdm.
        assert (Hmod : i mod J < J) by (apply Nat.mod_upper_bound; lia).
        rewrite H' by lia. destruct HJ64 as [q Hq].
        assert (i / J < q) by (apply Nat.div_lt_upper_bound; lia).
        destruct (Ht (i mod J) Hmod) as [_ Ht2]. rewrite Ht2 by nia.
        assert (E1 : (J * (i / J) + c) / J = i / J) by (symmetry; apply (Nat.div_unique _ _ _ c); lia).
        assert (E2 : (J * (i / J) + c) mod J = c) by (symmetry; apply (Nat.mod_unique _ _ (i / J)); lia).
        rewrite E1, E2. f_equal. f_equal. lia.
Qed.
