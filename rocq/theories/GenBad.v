(** Undefined behaviour of the reverse LU generator for 128 and 256 bits. *)
From Coq Require Import Arith NArith List Bool Lia.
From Verif Require Import Base Tables Model Spec LinAlg Mem Cons Rand Mul Elim Rel Qpr ModelGen SpecGen Gen.
Import ListNotations.

(** ** Loops: what holds if they end, and undefined behaviour of a step *)
Lemma for_up_inv : forall St (I : nat -> St -> Prop) body a b s z,
  I a s -> (forall i x y, a <= i -> i < b -> I i x -> body i x = Ok y -> I (S i) y) ->
  a <= b -> for_up a b body s = Ok z -> I b z.
Proof.
  intros St I body a b s z H0 Hs Hab. unfold for_up.
  remember (b - a) as k eqn:Ek. revert a s H0 Hs Hab Ek.
  induction k as [|k IH]; intros a s H0 Hs Hab Ek; cbn [up_n].
  - intros E. injection E as <-. replace b with a by lia. exact H0.
  - destruct (body a s) as [s'|] eqn:Eb; [|discriminate]. cbn [bind]. intros E.
    apply (IH (S a) s'); auto; try lia.
    + apply (Hs a s s'); auto; lia.
    + intros i x y Hi. apply Hs. lia.
Qed.
Lemma for_up_ub : forall St body a b (s : St), a < b -> body a s = UB -> for_up a b body s = UB.
Proof.
  intros St body a b s Hab H. unfold for_up. destruct (b - a) as [|k] eqn:E; [lia|].
  cbn [up_n]. rewrite H. reflexivity.
Qed.
Lemma for_up_split : forall St body a c b (s : St), a <= c -> c <= b ->
  for_up a b body s = (s1 <- for_up a c body s ;; for_up c b body s1).
Proof.
  intros St body a c b s H1 H2. unfold for_up.
  remember (c - a) as k eqn:Ek. revert a s H1 Ek.
  induction k as [|k IH]; intros a s H1 Ek.
  - cbn [up_n bind]. replace c with a by lia. reflexivity.
  - replace (b - a) with (S (b - S a)) by lia. cbn [up_n]. destruct (body a s) as [s'|]; auto.
    cbn [bind]. apply IH; lia.
Qed.
Lemma for_up_mid_ub : forall St (I : nat -> St -> Prop) body a c b (s : St), a <= c -> c < b ->
  I a s -> (forall i x y, a <= i -> i < c -> I i x -> body i x = Ok y -> I (S i) y) ->
  (forall x, I c x -> body c x = UB) -> for_up a b body s = UB.
Proof.
  intros St I body a c b s H1 H2 H0 Hs Hc. rewrite (for_up_split _ _ a c b) by lia.
  destruct (for_up a c body s) as [z|] eqn:E; auto. cbn [bind].
  apply for_up_ub; auto. apply Hc. apply (for_up_inv _ I body a c s z); auto.
Qed.

(** ** One row *)
Definition odd_draw (s : world) (k : nat) : bool := negb (N.eqb (rnd s k mod 2) 0).
Lemma coin_adv : forall s k, coin (adv s k) = (odd_draw s k, adv s (S k)).
Proof. intros s k. unfold coin, odd_draw. rewrite cus_adv. reflexivity. Qed.

(** cells of other rows than lo .. i-1 are those of m0 *)
Definition rest (i : nat) (m0 m : cells) : Prop := forall r, i <= r -> nth r m [] = nth r m0 [].
Lemma upd_out : forall A (l : list A) i x, length l <= i -> upd l i x = l.
Proof. induction l as [|a l IH]; intros [|i] x H; simpl in *; auto; try lia. f_equal. apply IH. lia. Qed.
Lemma aset_rest : forall (l : cells) i x l', aset l i x = Ok l' -> rest (S i) l l'.
Proof.
  intros l i x l' H r Hr. unfold aset in H. destruct (Nat.ltb_spec i (length l)) as [Hi|]; [|discriminate].
  injection H as <-. rewrite nth_upd_g by auto. destruct (Nat.eqb_spec r i); [lia|reflexivity].
Qed.
Lemma cset_rest : forall m i k x m', cset m i k x = Ok m' -> rest (S i) m m'.
Proof.
  intros m i k x m' H. unfold cset in H. destruct (aget m i) as [r|]; [|discriminate]. cbn [bind] in H.
  destruct (aset r k x) as [r'|]; [|discriminate]. cbn [bind] in H. apply aset_rest in H. exact H.
Qed.
Lemma cxor_rest : forall w flat m i k x m', k < nw w -> cxor w flat m i k x = Ok m' -> rest (S i) m m'.
Proof.
  intros w flat m i k x m' Hk H. unfold cxor in H.
  destruct (negb flat && (nw w <=? k))%bool; [discriminate|].
  rewrite Nat.div_small, Nat.add_0_r in H by auto.
  destruct (aget m i) as [r|]; [|discriminate]. cbn [bind] in H.
  destruct (aget r (k mod nw w)) as [c|]; [|discriminate]. cbn [bind] in H. destruct c; [|discriminate].
  apply cset_rest in H. exact H.
Qed.
Lemma rest_trans : forall i a b c, rest i a b -> rest i b c -> rest i a c.
Proof. intros i a b c H1 H2 r Hr. rewrite H2, H1 by auto. reflexivity. Qed.
Lemma coins_inv : forall w flat i k a b m s q m' s', k < nw w -> a <= b ->
  coins w flat i k a b (m, adv s q) = Ok (m', s') -> rest (S i) m m' /\ s' = adv s (q + (b - a)).
Proof.
  intros w flat i k a b m s q m' s' Hk Hab H. unfold coins in H.
  apply (for_up_inv _ (fun j st => rest (S i) m (fst st) /\ snd st = adv s (q + (j - a)))) in H; auto.
  - cbn [fst snd]. split; [intros r _; reflexivity|]. rewrite Nat.sub_diag, Nat.add_0_r. reflexivity.
  - intros j [m1 s1] [m2 s2] J1 J2 [A1 A2] E. cbn [fst snd] in *. subst s1. rewrite coin_adv in E.
    assert (En : S (q + (j - a)) = q + (S j - a)) by lia. rewrite En in E.
    destruct (odd_draw s (q + (j - a))).
    + destruct (aget (idt w) j) as [x|]; [|discriminate]. cbn [bind] in E.
      destruct (cxor w flat m1 i k x) as [m3|] eqn:Ex; [|discriminate]. cbn [bind] in E.
      injection E as <- <-. split; auto. apply rest_trans with (b := m1); auto.
      apply (cxor_rest w flat m1 i k x); auto.
    + injection E as <- <-. split; auto.
Qed.
Lemma zeroes_inv : forall i a b m m', a <= b -> zeroes i a b m = Ok m' -> rest (S i) m m'.
Proof.
  intros i a b m m' Hab H. unfold zeroes in H.
  apply (for_up_inv _ (fun _ x => rest (S i) m x)) in H; auto; [intros r _; reflexivity|].
  intros k x y _ _ H1 H2. apply rest_trans with (b := x); auto. apply (cset_rest _ _ _ _ _ H2).
Qed.

Fixpoint tri (n : nat) : nat := match n with O => O | S k => tri k + k end.

(** the first coin of a loop shows 1 and the access is undefined *)
Lemma coins_ub : forall w flat i k a b m s q, a < b -> odd_draw s q = true ->
  (forall x, cxor w flat m i k x = UB) -> coins w flat i k a b (m, adv s q) = UB.
Proof.
  intros w flat i k a b m s q Hab Ho Hx. unfold coins. apply for_up_ub; auto.
  rewrite coin_adv, Ho. destruct (aget (idt w) a); auto. cbn [bind]. rewrite Hx. reflexivity.
Qed.
Lemma cxor_none : forall w flat m i k x, k < nw w -> cell m i k = None -> cxor w flat m i k x = UB.
Proof.
  intros w flat m i k x Hk Hc. unfold cxor. destruct (negb flat && (nw w <=? k))%bool; auto.
  rewrite Nat.div_small, Nat.add_0_r, Nat.mod_small by auto. unfold cell in Hc.
  unfold aget. destruct (nth_error m i) as [r|] eqn:E; auto. cbn [bind].
  rewrite (nth_error_nth _ _ [] E) in Hc.
  destruct (nth_error r k) as [c|] eqn:E2; auto. cbn [bind].
  rewrite (nth_error_nth _ _ None E2) in Hc. rewrite Hc. reflexivity.
Qed.

(** ** lowM128 and lowM256: row 64 reads M[64][0] if coin number 2016 shows 1 *)
Lemma low_ub : forall w flat m s, (w = W128 \/ w = W256) -> cell m 64 0 = None ->
  odd_draw (reseed s) (tri 64) = true -> low w flat m s = UB.
Proof.
  intros w flat m s Hw Hc Ho. unfold low, reseed_int.
  destruct (N.eqb (w_seed s) (2 ^ 31 - 1)); auto. cbn [bind].
  assert (Wb : wb w = 64) by (destruct Hw; subst; reflexivity).
  assert (Nw : 2 <= nw w) by (destruct Hw; subst; cbn; lia).
  apply (for_up_mid_ub _ (fun b st => (b = 0 -> st = (m, reseed s)) /\
    (b = 1 -> rest 64 m (fst st) /\ snd st = adv (reseed s) (tri 64)))) with (c := 1).
  - lia.
  - lia.
  - split; [auto|discriminate].
  - intros b x y B1 B2 [I0 _] E. split; [discriminate|]. intros _. assert (b = 0) by lia. subst b.
    rewrite (I0 eq_refl) in E. clear x I0.
    rewrite Wb in E. cbn [Nat.mul Nat.add] in E.
    apply (for_up_inv _ (fun i st => rest i m (fst st) /\ snd st = adv (reseed s) (tri i))) in E; auto.
    + split; [intros r _; reflexivity|reflexivity].
    + intros i [m1 s1] [m2 s2] J1 J2 [A1 A2] E2. cbn [fst snd] in *. subst s1.
      rewrite Nat.sub_0_r in E2.
      destruct (aget (idt w) i) as [d|]; [|discriminate]. cbn [bind] in E2.
      destruct (cset m1 i 0 (Some d)) as [m3|] eqn:E3; [|discriminate]. cbn [bind] in E2.
      destruct (coins w flat i 0 0 i (m3, adv (reseed s) (tri i))) as [[m4 s4]|] eqn:E4; [|discriminate].
      apply coins_inv in E4; [|lia|lia]. destruct E4 as [A4 ->]. cbn [bind] in E2.
      change (for_down 0 0 (fun c st => coins w flat i c 0 64 st) (m4, adv (reseed s) (tri i + (i - 0))))
        with (Ok (m4, adv (reseed s) (tri i + (i - 0)))) in E2. cbn [bind] in E2.
      destruct (zeroes i 1 (nw w) m4) as [m5|] eqn:E5; [|discriminate]. cbn [bind] in E2.
      injection E2 as <- <-. apply zeroes_inv in E5; [|lia]. apply cset_rest in E3.
      split; [|rewrite Nat.sub_0_r; reflexivity].
      apply rest_trans with (b := m1); [intros r Hr; apply A1; lia|].
      apply rest_trans with (b := m3); auto. apply rest_trans with (b := m4); auto.
    + lia.
  - intros [m1 s1] [_ I1]. destruct (I1 eq_refl) as [A1 A2]. cbn [fst snd] in *. subst s1.
    rewrite Wb. apply for_up_ub; [lia|].
    change (64 * 1) with 64. rewrite Nat.sub_diag.
    destruct (aget (idt w) 0) as [d|]; auto. cbn [bind].
    destruct (cset m1 64 1 (Some d)) as [m2|] eqn:E2; auto. cbn [bind].
    change (coins w flat 64 1 0 0 (m2, adv (reseed s) (tri 64))) with (Ok (m2, adv (reseed s) (tri 64))).
    cbn [bind]. unfold for_down. change (1 - 0) with 1. cbn [down_n]. change (0 + 0) with 0.
    rewrite coins_ub; auto; [lia|]. intros x. apply cxor_none; [lia|].
    assert (Hm : cell m1 64 0 = None) by (unfold cell; rewrite A1 by lia; exact Hc).
    unfold cset in E2. unfold aget in E2. destruct (nth_error m1 64) as [r|] eqn:Er; [|discriminate E2].
    cbn [bind] in E2. unfold aset in E2 at 1. destruct (Nat.ltb_spec 1 (length r)) as [L|]; [|discriminate E2].
    cbn [bind] in E2. unfold aset in E2. destruct (Nat.ltb_spec 64 (length m1)) as [L1|]; [|discriminate E2].
    injection E2 as <-. unfold cell in *. rewrite nth_upd_g by auto.
    rewrite (nth_error_nth _ _ [] Er) in Hm. change (64 =? 64) with true. cbv iota.
    rewrite nth_upd_g by auto. exact Hm.
Qed.
Lemma low_seed : forall w flat m s c s', low w flat m s = Ok (c, s') ->
  w_seed s' = w_seed (reseed s) /\ w_clk s' = w_clk s /\ w_tick s' = S (w_tick s).
Proof.
  intros w flat m s c s' H. unfold low, reseed_int in H.
  destruct (N.eqb (w_seed s) (2 ^ 31 - 1)); [discriminate|]. cbn [bind] in H.
  pose (J := fun st : cells * world => w_seed (snd st) = w_seed (reseed s) /\ w_clk (snd st) = w_clk s /\
     w_tick (snd st) = S (w_tick s)).
  assert (C : forall i k a b x y, a <= b -> J x -> coins w flat i k a b x = Ok y -> J y).
  { intros i k a b x y Hab Jx E. unfold coins in E.
    apply (for_up_inv _ (fun _ st => J st)) in E; auto.
    intros j [m1 s1] [m2 s2] _ _ J1 E1. unfold coin in E1.
    unfold cus_random in E1. cbv zeta beta iota in E1.
    assert (K : forall m', J (m', mkworld (w_seed s1) (u32 (w_idx s1 + 1)) (w_off s1) (w_clk s1) (w_tick s1)))
      by (intros m'; exact J1).
    destruct (negb _); [|injection E1 as <- <-; apply K].
    destruct (aget (idt w) j) as [d|]; [|discriminate]. cbn [bind] in E1.
    destruct (cxor w flat m1 i k d) as [m3|]; [|discriminate]. cbn [bind] in E1.
    injection E1 as <- <-. apply K. }
  apply (for_up_inv _ (fun _ st => J st)) in H; [exact H| | |lia].
  - repeat split.
  - intros b x y _ _ Jx E. apply (for_up_inv _ (fun _ st => J st)) in E; auto; [|lia].
    intros i [m1 s1] [m2 s2] I1 I2 J1 E1. 
    destruct (aget (idt w) (i - wb w * b)) as [d|]; [|discriminate]. cbn [bind] in E1.
    destruct (cset m1 i b (Some d)) as [m3|]; [|discriminate]. cbn [bind] in E1.
    destruct (coins w flat i b 0 (i - wb w * b) (m3, s1)) as [st|] eqn:E2; [|discriminate]. cbn [bind] in E1.
    apply C in E2; [|lia|exact J1].
    destruct (for_down b 0 (fun c st => coins w flat i c 0 (wb w) st) st) as [[m4 s4]|] eqn:E3; [|discriminate].
    cbn [bind] in E1.
    assert (J4 : J (m4, s4)).
    { unfold for_down in E3. revert st E2 E3. generalize (b - 0). intros q.
      induction q as [|q IH]; intros st E2 E3; cbn [down_n] in E3; [injection E3 as ->; exact E2|].
      destruct (coins w flat i (0 + q) 0 (wb w) st) as [st'|] eqn:E4; [|discriminate]. cbn [bind] in E3.
      apply (IH st'); auto. apply C in E4; auto. lia. }
    destruct (zeroes i (b + 1) (nw w) m4) as [m5|]; [|discriminate]. cbn [bind] in E1.
    injection E1 as <- <-. exact J4.
Qed.

(** ** upM256: row 192 accesses M[192][4] *)
Fixpoint upc (n : nat) : nat := match n with O => O | S k => upc k + (255 - k) end.
Lemma up_ub : forall m s, odd_draw (reseed s) (upc 192) = true -> up W256 false m s = UB.
Proof.
  intros m s Ho. unfold up, reseed_int.
  destruct (N.eqb (w_seed s) (2 ^ 31 - 1)); auto. cbn [bind].
  change (nw W256) with 4. change (wb W256) with 64.
  assert (C : forall i k a b m1 q m' s', k < 4 -> a <= b ->
    coins W256 false i k a b (m1, adv (reseed s) q) = Ok (m', s') -> s' = adv (reseed s) (q + (b - a))).
  { intros i k a b m1 q m' s' Hk Hab E. apply coins_inv in E; auto. apply E. }
  apply (for_up_mid_ub _ (fun b st => snd st = adv (reseed s) (upc (64 * b)))) with (c := 3).
  - lia.
  - lia.
  - reflexivity.
  - intros b x y B1 B2 A E.
    replace (64 * S b) with (64 * (b + 1)) by lia.
    apply (for_up_inv _ (fun i st => snd st = adv (reseed s) (upc i))) in E; auto; [|lia].
    intros i [m1 s1] [m2 s2] J1 J2 A1 E1. cbn [snd] in *. subst s1.
    destruct (zeroes i 0 b m1) as [m3|]; [|discriminate]. cbn [bind] in E1.
    destruct (aget (idt W256) (i - 64 * b)) as [d|]; [|discriminate]. cbn [bind] in E1.
    destruct (cset m3 i b (Some d)) as [m4|]; [|discriminate]. cbn [bind] in E1.
    assert (T : up_target W256 b = b) by (unfold up_target; destruct (Nat.eqb_spec b 3); auto; lia).
    rewrite T in E1.
    destruct (coins W256 false i b (i - 64 * b + 1) 64 (m4, adv (reseed s) (upc i))) as [[m5 s5]|] eqn:E5;
      [|discriminate]. cbn [bind] in E1. apply C in E5; [|lia|lia]. subst s5.
    apply (for_up_inv _ (fun c st => snd st =
       adv (reseed s) (upc i + (64 - (i - 64 * b + 1)) + 64 * (c - (b + 1))))) in E1.
    + cbn [snd] in E1. rewrite E1. cbn [upc]. f_equal. lia.
    + cbn [snd]. f_equal. lia.
    + intros c [m6 s6] [m7 s7] C1 C2 A6 E6. cbn [snd] in *. subst s6. apply C in E6; [|lia|lia].
      rewrite E6. f_equal. lia.
    + lia.
  - intros [m1 s1] A. cbn [snd] in A. subst s1. apply for_up_ub; [lia|].
    destruct (zeroes (64 * 3) 0 3 m1) as [m3|]; auto. cbn [bind].
    destruct (aget (idt W256) (64 * 3 - 64 * 3)) as [d|]; auto. cbn [bind].
    destruct (cset m3 (64 * 3) 3 (Some d)) as [m4|]; auto. cbn [bind].
    rewrite coins_ub; auto. lia.
Qed.

(** ** The result depends on the uninitialised words *)
Definition dif (w : width) (D : nat -> nat -> N) (x y : cells) : Prop :=
  cshape w x /\ cshape w y /\ forall i c, i < dim w -> c < nw w ->
  exists a b, cell x i c = Some a /\ cell y i c = Some b /\
    (c < i / wb w -> N.lxor a b = D i c).
Definition difp w D (x y : cells * world) : Prop := dif w D (fst x) (fst y) /\ snd x = snd y.

Lemma rp_of_wp : forall A (c1 c2 : res A) (R : A -> A -> Prop),
  wp c1 (fun x => wp c2 (fun y => R x y)) -> rp c1 c2 R.
Proof. intros A [a|] [b|] R H; simpl in *; auto; contradiction. Qed.
Lemma rp_cset : forall w D x y i k d, dif w D x y -> i < dim w -> k < nw w -> i / wb w <= k ->
  rp (cset x i k (Some d)) (cset y i k (Some d)) (dif w D).
Proof.
  intros w D x y i k d (S1 & S2 & H) Hi Hk Hb. apply rp_of_wp.
  apply wp_cset with (w := w); auto. intros x' X1 X2.
  apply wp_cset with (w := w); auto. intros y' Y1 Y2. split; auto. split; auto.
  intros r c Hr Hc. rewrite X2, Y2. destruct (Nat.eqb_spec r i) as [->|]; cbn [andb]; [|auto].
  destruct (Nat.eqb_spec c k) as [->|]; [|auto]. exists d, d. split; auto. split; auto. lia.
Qed.
Lemma rp_coins : forall w flat D x y i k a b, difp w D x y -> i < dim w -> k < nw w ->
  rp (coins w flat i k a b x) (coins w flat i k a b y) (difp w D).
Proof.
  intros w flat D x y i k a b H Hi Hk. unfold coins. apply rp_for_up; auto.
  intros j [m1 s1] [m2 s2] _ _ [H1 H2]. cbn [fst snd] in *. subst s2.
  destruct (coin s1) as [[|] s]; [|split; auto]. apply rp_eq; auto. intros d _.
  destruct H1 as (S1 & S2 & H1). destruct (H1 i k Hi Hk) as (p & q & P & Q & Hpq).
  eapply rp_bind.
  - apply rp_of_wp.
    apply wp_cxor with (i' := i) (k' := k) (y := p); auto;
      [rewrite Nat.div_small by auto; lia|rewrite Nat.mod_small; auto|]. intros x' X1 X2.
    apply wp_cxor with (i' := i) (k' := k) (y := q); auto;
      [rewrite Nat.div_small by auto; lia|rewrite Nat.mod_small; auto|]. intros y' Y1 Y2.
    instantiate (1 := dif w D). split; auto. split; auto.
    intros r c Hr Hc. rewrite X2, Y2. destruct (Nat.eqb_spec r i) as [->|]; cbn [andb]; [|auto].
    destruct (Nat.eqb_spec c k) as [->|]; [|auto].
    exists (N.lxor p d), (N.lxor q d). split; auto. split; auto. intros L. rewrite <- (Hpq L).
    rewrite (N.lxor_comm q d), N.lxor_assoc, <- (N.lxor_assoc d d q), N.lxor_nilpotent, N.lxor_0_l.
    reflexivity.
  - intros x' y' Hd. split; auto.
Qed.
Lemma rp_low : forall w flat D x y s, dif w D x y ->
  rp (low w flat x s) (low w flat y s) (difp w D).
Proof.
  intros w flat D x y s H. unfold low. apply rp_eq; auto. intros s0 _.
  apply rp_for_up; [split; auto|]. intros b p q _ Hb Hpq.
  apply rp_for_up; auto. intros i [m1 s1] [m2 s2] I1 I2 [H1 H2]. cbn [fst snd] in *. subst s2.
  destruct (col_split w b i I1 I2) as (Ed & _ & _).
  assert (Hi : i < dim w).
  { assert (wb w * (b + 1) <= dim w) by (rewrite dim_eq; apply Nat.mul_le_mono_l; lia). lia. }
  apply rp_eq; auto. intros d _.
  eapply rp_bind; [apply rp_cset with (w := w) (D := D); auto; lia|]. intros m3 m4 H3.
  eapply rp_bind; [apply rp_coins with (D := D); auto; split; auto|]. intros p3 q3 H4.
  eapply rp_bind; [apply rp_for_down with (R := difp w D); [exact H4|]|].
  { intros c u v _ Hc Huv. apply rp_coins; auto. lia. }
  intros [m5 s5] [m6 s6] [H5 H6]. cbn [fst snd] in *. subst s6.
  eapply rp_bind; [|intros u v Huv; split; [exact Huv|reflexivity]].
  unfold zeroes. apply rp_for_up; auto. intros k u v K1 K2 Huv. apply rp_cset; auto. lia.
Qed.

Lemma load_cells : forall w m l, cshape w m -> load m = Ok l -> forall i c, i < dim w -> c < nw w ->
  cell m i c = Some (word l i c).
Proof.
  intros w m l [HL HR] E.
  assert (R : forall r q, load_row r = Ok q -> r = map Some q).
  { induction r as [|[x|] r IH]; intros q Eq; cbn [load_row] in Eq; try discriminate.
    - injection Eq as <-. reflexivity.
    - destruct (load_row r) as [q'|]; [|discriminate]. cbn [bind] in Eq. injection Eq as <-.
      cbn [map]. f_equal. apply IH. reflexivity. }
  assert (M : forall m l, load m = Ok l -> m = map (map Some) l).
  { induction m0 as [|r m0 IH]; intros q Eq; cbn [load] in Eq.
    - injection Eq as <-. reflexivity.
    - destruct (load_row r) as [r'|] eqn:Er; [|discriminate]. cbn [bind] in Eq.
      destruct (load m0) as [q'|]; [|discriminate]. cbn [bind] in Eq. injection Eq as <-.
      cbn [map]. f_equal; [apply R; auto|]. apply IH. reflexivity. }
  intros i c Hi Hc. pose proof (HR i Hi) as Hl. rewrite (M m l E) in *. unfold cell, word in *.
  change (@nil (option N)) with (map (@Some N) []) in *. rewrite map_nth in *.
  rewrite map_length in Hl.
  rewrite (nth_indep _ None (Some 0%N)) by (rewrite map_length; lia). apply map_nth.
Qed.

Lemma rlud_depends : forall e w flat c1 c1' c2 m s D i c,
  cshape w c2 -> shapeM w m -> dif w D c1 c1' ->
  (flat = true \/ w <> W256) ->
  (forall i, i < dim w -> filled w c1 i) -> (forall i, i < dim w -> filled w c1' i) ->
  (forall i, i < dim w -> filled w c2 i) ->
  i < dim w -> c < i / wb w -> D i c <> 0%N ->
  forall r r', InvT_rlud e w flat c1 c2 m s = Ok r -> InvT_rlud e w flat c1' c2 m s = Ok r' ->
  fst r <> fst r'.
Proof.
  intros e w flat c1 c1' c2 m s D i c S2 Hm HD Hf F1 F1' F2 Hi Hc Hne r r' E E'.
  unfold InvT_rlud in E, E'.
  destruct (reseed_int s) as [s0|]; [|discriminate]. cbn [bind] in E, E'.
  pose proof (rp_low w flat D c1 c1' s0 HD) as RL. destruct HD as (S1 & S1' & _).
  assert (NS : forall x, wp (low w flat x s0) (fun _ => True) -> w_seed s0 <> (2 ^ 31 - 1)%N).
  { intros x H Hs. unfold low, reseed_int in H. rewrite Hs in H. exact H. }
  destruct (low w flat c1 s0) as [[d1 s1]|] eqn:L1; [|discriminate].
  destruct (low w flat c1' s0) as [[d1' s1']|] eqn:L1'; [|discriminate]. cbn [bind] in E, E'.
  destruct RL as [(_ & _ & RL) Es]. cbn [fst snd] in *. subst s1'.
  assert (H0 : w_seed s0 <> (2 ^ 31 - 1)%N) by (apply (NS c1); rewrite L1; exact I).
  pose proof (low_wp w flat c1 s0 S1 ltac:(auto) H0) as W1. rewrite L1 in W1. destruct W1 as (V1 & T1 & _).
  pose proof (low_wp w flat c1' s0 S1' ltac:(auto) H0) as W1'. rewrite L1' in W1'. destruct W1' as (V1' & T1' & _).
  cbn [fst snd] in *.
  destruct (up w flat c2 s1) as [[d2 s2]|] eqn:L2; [|discriminate]. cbn [bind] in E, E'.
  assert (H1 : w_seed s1 <> (2 ^ 31 - 1)%N).
  { intros Hs. unfold up, reseed_int in L2. rewrite Hs in L2. discriminate L2. }
  pose proof (up_wp w flat c2 s1 Hf S2 ltac:(auto) H1) as W2. rewrite L2 in W2. destruct W2 as (V2 & T2 & _).
  cbn [fst snd] in *.
  destruct (load_ok w d1 V1 (lowtri_filled w d1 T1)) as (m1 & K1 & X1 & B1).
  destruct (load_ok w d1' V1' (lowtri_filled w d1' T1')) as (m1' & K1' & X1' & B1').
  destruct (load_ok w d2 V2 (uptri_filled w d2 T2)) as (m2 & K2 & X2 & B2).
  rewrite K1, K2 in E. rewrite K1', K2 in E'. cbn [bind] in E, E'.
  assert (I2 : invertible (dim w) (mbit w m2)).
  { apply uptri_invertible; [intros q Hq; rewrite B2 by auto; apply (T2 q Hq)|].
    intros q j Hij Hj. rewrite B2 by lia. apply (T2 q Hj); auto. }
  assert (Nm : ~ feq (dim w) (mbit w m1) (mbit w m1')).
  { intros Heq. apply (mbit_ext w m1 m1' X1 X1') in Heq. subst m1'.
    assert (Hk : c < nw w) by (pose proof (div_lt_nw w i Hi); lia).
    destruct (RL i c Hi Hk) as (a & b & Ea & Eb & Ex).
    rewrite (load_cells w d1 m1 V1 K1 i c Hi Hk) in Ea.
    rewrite (load_cells w d1' m1 V1' K1' i c Hi Hk) in Eb.
    injection Ea as <-. injection Eb as <-. rewrite N.lxor_nilpotent in Ex. apply Hne. symmetry. auto. }
  destruct (wp_exists _ _ _ (MatMulMat_wp e w m1 m2 (fresh_m w) (wfM_typed _ _ X1) X2 (shape_fresh_m w)))
    as (m3 & E3 & X3 & B3).
  destruct (wp_exists _ _ _ (MatMulMat_wp e w m1' m2 (fresh_m w) (wfM_typed _ _ X1') X2 (shape_fresh_m w)))
    as (m3' & E3' & X3' & B3').
  rewrite E3 in E. rewrite E3' in E'. cbn [bind] in E, E'.
  pose (R := fun x y : mat * world => snd x = snd y /\ wfM w (fst x) /\ wfM w (fst y) /\
    ~ feq (dim w) (mbit w (fst x)) (mbit w (fst y))).
  assert (R0 : R (m3, s2) (m3', s2)).
  { split; auto. split; auto. split; auto. cbn [fst]. rewrite B3, B3'. intros Heq. apply Nm.
    destruct I2 as (V & HV). destruct HV as [HV _].
    rewrite <- (fmul_id_r _ (mbit w m1)), <- (fmul_id_r _ (mbit w m1')), <- HV.
    rewrite <- !fmul_assoc. rewrite Heq. reflexivity. }
  assert (RE : rp (for_up 0 (dim w - 1) (rand_exchange w) (m3, s2))
                  (for_up 0 (dim w - 1) (rand_exchange w) (m3', s2)) R).
  { apply rp_for_up; auto. intros j [x t] [y t'] _ Hj (Q1 & Q2 & Q3 & Q4). cbn [fst snd] in *. subst t'.
    unfold rand_exchange. destruct (cus_random t) as [a t']. apply rp_eq; auto. intros q Eq.
    assert (Hq : j + 1 + N.to_nat q < dim w).
    { unfold urem in Eq. destruct (N.eqb_spec (N.of_nat (dim w - 1 - j)) 0); [discriminate|].
      injection Eq as <-. pose proof (N.mod_lt a (N.of_nat (dim w - 1 - j)) ltac:(auto)). lia. }
    eapply rp_bind.
    - apply rp_of_wp.
      apply wp_swap_row_full; [auto|lia|auto|]. intros x' Wx Bx.
      apply wp_swap_row_full; [auto|lia|auto|]. intros y' Wy By.
      instantiate (1 := fun x' y' => wfM w x' /\ wfM w y' /\ ~ feq (dim w) (mbit w x') (mbit w y')).
      split; auto. split; auto. rewrite Bx, By. intros Heq. apply Q4.
      rewrite <- (rswap_invol _ j (j + 1 + N.to_nat q) (mbit w x)).
      rewrite <- (rswap_invol _ j (j + 1 + N.to_nat q) (mbit w y)).
      apply rswap_ext; auto. lia.
    - intros x' y' (U1 & U2 & U3). split; auto. }
  destruct (for_up 0 (dim w - 1) (rand_exchange w) (m3, s2)) as [[m4 s4]|]; [|discriminate].
  destruct (for_up 0 (dim w - 1) (rand_exchange w) (m3', s2)) as [[m4' s4']|]; [|discriminate].
  destruct RE as (_ & Q2 & Q3 & Q4). cbn [fst] in *. cbn [bind] in E, E'.
  rewrite copyM_ok in E by auto using wfM_shape. rewrite copyM_ok in E' by auto using wfM_shape.
  cbn [bind] in E, E'. injection E as <-. injection E' as <-. cbn [fst]. intros ->. apply Q4. reflexivity.
Qed.
