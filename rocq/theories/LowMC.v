(** test/LowMCMethod_text.cpp: the bit generator and the rejection loop. *)
From Coq Require Import Arith NArith List Bool Lia.
From Verif Require Import Base Tables Model Spec LinAlg Mem Cons Elim Check RowProd ModelLowMC SpecLowMC.
Import ListNotations.

(** ** One step *)

Definition st80 (st : N) : Prop := (st < 2 ^ 80)%N.

Lemma high80 : forall st i, st80 st -> (80 <= i)%N -> N.testbit st i = false.
Proof.
  intros st i H Hi. unfold st80 in H. rewrite <- (N.mod_small st (2 ^ 80)) by auto.
  apply N.mod_pow2_bits_high; auto.
Qed.
Lemma st80_bits : forall st, (forall i, (80 <= i)%N -> N.testbit st i = false) -> st80 st.
Proof.
  intros st H. unfold st80. assert (E : st = (st mod 2 ^ 80)%N).
  { apply N.bits_inj. intros i. destruct (N.ltb_spec i 80).
    - rewrite N.mod_pow2_bits_low; auto.
    - rewrite N.mod_pow2_bits_high by auto. apply H; auto. }
  rewrite E. apply N.mod_lt. discriminate.
Qed.
Lemma lfsr_bit : forall st i, st80 st ->
  N.testbit (snd (lfsr st)) i = if (i =? 79)%N then taps st else N.testbit st (i + 1).
Proof.
  intros st i H. unfold lfsr. cbn [snd]. rewrite N.lor_spec, N.shiftr_spec by apply N.le_0_l.
  destruct (N.eqb_spec i 79) as [->|Hi].
  - rewrite high80 by (auto; discriminate). cbn [orb]. destruct (taps st); [reflexivity|apply N.bits_0].
  - replace (N.testbit (if taps st then 2 ^ 79 else 0) i) with false; [apply orb_false_r|].
    destruct (taps st); [|symmetry; apply N.bits_0]. rewrite N.pow2_bits_eqb.
    symmetry. apply N.eqb_neq. auto.
Qed.
Lemma lfsr_st80 : forall st, st80 st -> st80 (snd (lfsr st)).
Proof.
  intros st H. apply st80_bits. intros i Hi. rewrite lfsr_bit by auto.
  destruct (N.eqb_spec i 79); [lia|]. apply high80; auto. lia.
Qed.
Lemma lfsr_nonzero : forall st, st80 st -> st <> 0%N -> snd (lfsr st) <> 0%N.
Proof.
  intros st H Hn E. apply Hn. apply N.bits_inj_0. intros i.
  assert (B : forall i, N.testbit (snd (lfsr st)) i = false) by (intros; rewrite E; apply N.bits_0).
  assert (B1 : forall i, N.testbit st (i + 1) = false).
  { intros j. destruct (N.eq_dec j 79) as [->|Hj].
    - apply high80; auto. discriminate.
    - rewrite <- (B j). rewrite lfsr_bit by auto. destruct (N.eqb_spec j 79); [contradiction|reflexivity]. }
  destruct (N.eq_dec i 0) as [->|Hi].
  - specialize (B 79%N). rewrite lfsr_bit in B by auto. cbn [N.eqb Pos.eqb] in B. unfold taps in B.
    rewrite (B1 12%N : N.testbit st 13 = false), (B1 22%N : N.testbit st 23 = false),
      (B1 37%N : N.testbit st 38 = false), (B1 50%N : N.testbit st 51 = false),
      (B1 61%N : N.testbit st 62 = false) in B.
    rewrite !xorb_false_r in B. exact B.
  - replace i with (i - 1 + 1)%N by lia. apply B1.
Qed.

(** ** Windows of the sequence *)

Definition win (s : nat -> bool) (t : nat) (st : N) : Prop :=
  st80 st /\ forall i, i < 80 -> N.testbit st (N.of_nat i) = s (t + i).

Lemma lfsr_win : forall s t st, grain_rec s -> win s t st ->
  fst (lfsr st) = s (t + 80) /\ win s (S t) (snd (lfsr st)).
Proof.
  intros s t st Hs [H1 H2].
  assert (T : taps st = s (t + 80)).
  { unfold taps. rewrite Hs.
    rewrite (H2 0 ltac:(lia) : N.testbit st 0 = _), (H2 13 ltac:(lia) : N.testbit st 13 = _),
      (H2 23 ltac:(lia) : N.testbit st 23 = _), (H2 38 ltac:(lia) : N.testbit st 38 = _),
      (H2 51 ltac:(lia) : N.testbit st 51 = _), (H2 62 ltac:(lia) : N.testbit st 62 = _).
    rewrite Nat.add_0_r, !xorb_assoc. reflexivity. }
  split; [exact T|]. split; [apply lfsr_st80; auto|].
  intros i Hi. rewrite lfsr_bit by auto. destruct (N.eqb_spec (N.of_nat i) 79) as [E|E].
  - rewrite T. f_equal. lia.
  - replace (N.of_nat i + 1)%N with (N.of_nat (S i)) by lia. rewrite H2 by lia. f_equal. lia.
Qed.

(** ** Termination: the first 80 choice bits determine the state *)

Definition lin (f : N -> N) : Prop := forall a b, f (N.lxor a b) = N.lxor (f a) (f b).
Lemma lin_0 : forall f, lin f -> f 0%N = 0%N.
Proof.
  intros f H. specialize (H 0%N 0%N). rewrite N.lxor_0_r in H. rewrite H. apply N.lxor_nilpotent.
Qed.
Lemma lin_agree : forall n f g, lin f -> lin g -> (forall j, j < n -> f (2 ^ N.of_nat j)%N = g (2 ^ N.of_nat j)%N) ->
  forall x, (x < 2 ^ N.of_nat n)%N -> f x = g x.
Proof.
  induction n as [|n IH]; intros f g Hf Hg H x Hx.
  - change (2 ^ N.of_nat 0)%N with 1%N in Hx. replace x with 0%N by lia. rewrite !lin_0; auto.
  - assert (E : x = N.lxor (x mod 2 ^ N.of_nat n) (if N.testbit x (N.of_nat n) then 2 ^ N.of_nat n else 0)).
    { apply N.bits_inj. intros i. rewrite N.lxor_spec.
      assert (Z : N.testbit (if N.testbit x (N.of_nat n) then 2 ^ N.of_nat n else 0) i
                  = (N.testbit x (N.of_nat n) && (N.of_nat n =? i)%N)%bool).
      { destruct (N.testbit x (N.of_nat n)); [apply N.pow2_bits_eqb|apply N.bits_0]. }
      rewrite Z. destruct (N.lt_trichotomy i (N.of_nat n)) as [L|[L|L]].
      - rewrite N.mod_pow2_bits_low by auto. destruct (N.eqb_spec (N.of_nat n) i); [lia|].
        rewrite andb_false_r, xorb_false_r. reflexivity.
      - subst i. rewrite N.mod_pow2_bits_high by lia. rewrite N.eqb_refl, andb_true_r, xorb_false_l. reflexivity.
      - rewrite N.mod_pow2_bits_high by lia. destruct (N.eqb_spec (N.of_nat n) i); [lia|].
        rewrite andb_false_r. rewrite <- (N.mod_small x (2 ^ N.of_nat (S n))) by auto.
        apply N.mod_pow2_bits_high. lia. }
    rewrite E, Hf, Hg. f_equal.
    + apply IH; auto. apply N.mod_lt. apply N.pow_nonzero. discriminate.
    + destruct (N.testbit x (N.of_nat n)); [apply H; lia|rewrite !lin_0; auto].
Qed.

(** the step without overlap, linear on all numbers *)
Definition lstep (st : N) : N :=
  N.lxor (N.div2 st) (if taps st then 0x80000000000000000000 else 0).
Fixpoint cvec (k : nat) (st : N) : N :=
  match k with
  | O => 0%N
  | S k' => N.lxor (if taps st then 1 else 0) (N.shiftl (cvec k' (lstep (lstep st))) 1)
  end.
Lemma taps_lin : forall a b, taps (N.lxor a b) = xorb (taps a) (taps b).
Proof.
  intros a b. unfold taps. rewrite !N.lxor_spec.
  destruct (N.testbit a 0), (N.testbit a 13), (N.testbit a 23), (N.testbit a 38), (N.testbit a 51),
    (N.testbit a 62), (N.testbit b 0), (N.testbit b 13), (N.testbit b 23), (N.testbit b 38),
    (N.testbit b 51), (N.testbit b 62); reflexivity.
Qed.
Lemma if_lin : forall (a b : bool) v, (if xorb a b then v else 0%N) = N.lxor (if a then v else 0) (if b then v else 0)%N.
Proof.
  intros [|] [|] v; cbn [xorb]; [symmetry; apply N.lxor_nilpotent|symmetry; apply N.lxor_0_r|symmetry; apply N.lxor_0_l|reflexivity].
Qed.
Lemma lxor_4 : forall a b c d, N.lxor (N.lxor a b) (N.lxor c d) = N.lxor (N.lxor a c) (N.lxor b d).
Proof.
  intros. rewrite !N.lxor_assoc. f_equal. rewrite <- (N.lxor_assoc b c d), (N.lxor_comm b c), N.lxor_assoc. reflexivity.
Qed.
Lemma lstep_lin : lin lstep.
Proof.
  intros a b. unfold lstep. rewrite taps_lin, if_lin, !N.div2_spec, N.shiftr_lxor. apply lxor_4.
Qed.
Lemma cvec_lin : forall k, lin (cvec k).
Proof.
  induction k as [|k IH]; intros a b; cbn [cvec]; [reflexivity|].
  rewrite !lstep_lin, IH, taps_lin, if_lin, N.shiftl_lxor. apply lxor_4.
Qed.
Lemma rp_lin : forall rB, lin (fun x => rp x rB).
Proof.
  intros rB a b. revert a b. induction rB as [|r rB IH]; intros a b; cbn [rp]; [reflexivity|].
  rewrite !N.div2_spec, N.shiftr_lxor, <- !N.div2_spec, IH. rewrite <- !N.bit0_odd, N.lxor_spec, if_lin.
  apply lxor_4.
Qed.

Definition back80 : list N :=
  [0x8a8808c0082c9a022296; 0x2a20230020b268088a58; 0xa8808c0082c9a0222960;
   0xa20230020b268088a582; 0x8808c0082c9a0222960a; 0x20230020b268088a5828;
   0x808c0082c9a0222960a1; 0x230020b268088a58284; 0x8c0082c9a0222960a10;
   0x230020b268088a582843; 0x8c0082c9a0222960a10c; 0x30020b268088a5828433;
   0xc0082c9a0222960a10cf; 0x8aa8baa800a6c22a61aa; 0x2aa2eaa0029b08a986aa;
   0xaa8baa800a6c22a61aaa; 0xaa2eaa0029b08a986aa8; 0xa8baa800a6c22a61aaa2;
   0xa2eaa0029b08a986aa8a; 0x8baa800a6c22a61aaa28; 0x2eaa0029b08a986aa8a0;
   0xbaa800a6c22a61aaa282; 0xeaa0029b08a986aa8a0a; 0x200802ac2a8a80a80abe;
   0x80200ab0aa2a02a02afa; 0x802ac2a8a80a80abe8; 0x200ab0aa2a02a02afa0; 0x802ac2a8a80a80abe80;
   0x200ab0aa2a02a02afa00; 0x802ac2a8a80a80abe800; 0xab0aa2a02a02afa002; 0x2ac2a8a80a80abe800a;
   0xab0aa2a02a02afa0028; 0x2ac2a8a80a80abe800a2; 0xab0aa2a02a02afa00289;
   0xac2a8a80a80abe800a25; 0xb0aa2a02a02afa002897; 0xc2a8a80a80abe800a25e;
   0x802aa8ea0a833a00abec; 0xaaa3a82a0ce802afb0; 0x2aa8ea0a833a00abec3; 0xaaa3a82a0ce802afb0c;
   0x2aa8ea0a833a00abec30; 0xaaa3a82a0ce802afb0c0; 0xaa8ea0a833a00abec300;
   0xaa3a82a0ce802afb0c03; 0xa8ea0a833a00abec300c; 0xa3a82a0ce802afb0c032;
   0x8ea0a833a00abec300cb; 0x3a82a0ce802afb0c032f; 0xea0a833a00abec300cbf;
   0x22a204280a832ac2106a; 0x8a8810a02a0cab0841a8; 0x2a204280a832ac2106a3;
   0xa8810a02a0cab0841a8e; 0xa204280a832ac2106a38; 0x8810a02a0cab0841a8e2;
   0x204280a832ac2106a388; 0x810a02a0cab0841a8e22; 0x4280a832ac2106a3888;
   0x10a02a0cab0841a8e221; 0x4280a832ac2106a38885; 0x808aa80ab8a8808c0082;
   0x22aa02ae2a20230020b; 0x8aa80ab8a8808c0082c; 0x22aa02ae2a20230020b2;
   0x8aa80ab8a8808c0082c9; 0x2aa02ae2a20230020b26; 0xaa80ab8a8808c0082c9a;
   0xaa02ae2a20230020b268; 0xa80ab8a8808c0082c9a0; 0xa02ae2a20230020b2680;
   0x80ab8a8808c0082c9a02; 0x2ae2a20230020b26808; 0xab8a8808c0082c9a022;
   0x2ae2a20230020b268088; 0xab8a8808c0082c9a0222; 0xae2a20230020b268088a;
   0xb8a8808c0082c9a02229; 0xe2a20230020b268088a5]%N.
Lemma back80_check : forallb (fun j => N.eqb (rp (cvec 80 (2 ^ N.of_nat j)) back80) (2 ^ N.of_nat j)) (seq 0 80) = true.
Proof. vm_compute. reflexivity. Qed.
Lemma back80_ok : forall st, st80 st -> rp (cvec 80 st) back80 = st.
Proof.
  intros st H. apply (lin_agree 80 (fun x => rp (cvec 80 x) back80) (fun x => x)).
  - intros a b. rewrite cvec_lin. apply (rp_lin back80).
  - intros a b. reflexivity.
  - intros j Hj. pose proof back80_check as C. rewrite forallb_forall in C.
    apply N.eqb_eq. apply (C j). apply in_seq. lia.
  - exact H.
Qed.
Lemma lstep_lfsr : forall st, st80 st -> lstep st = snd (lfsr st).
Proof.
  intros st H. apply N.bits_inj. intros i. rewrite lfsr_bit by auto. unfold lstep.
  change 0x80000000000000000000%N with (2 ^ 79)%N.
  rewrite N.lxor_spec, N.div2_spec, N.shiftr_spec by apply N.le_0_l.
  destruct (N.eqb_spec i 79) as [->|Hi].
  - rewrite high80 by (auto; discriminate). rewrite xorb_false_l. destruct (taps st); [reflexivity|apply N.bits_0].
  - replace (N.testbit (if taps st then 2 ^ 79 else 0) i) with false; [apply xorb_false_r|].
    destruct (taps st); [|symmetry; apply N.bits_0]. rewrite N.pow2_bits_eqb.
    symmetry. apply N.eqb_neq. auto.
Qed.
Lemma shrink_S : forall f st, shrink (S f) st =
  if fst (lfsr st) then Some (lfsr (snd (lfsr st))) else shrink f (snd (lfsr (snd (lfsr st)))).
Proof.
  intros f st. cbn [shrink]. destruct (lfsr st) as [c st1]. cbn [fst snd].
  destruct (lfsr st1) as [t st2]. reflexivity.
Qed.
Lemma some_inj : forall A (a b : A), Some a = Some b -> a = b.
Proof. intros A a b H. injection H. auto. Qed.
Lemma shrink_none : forall f st, st80 st -> shrink f st = None -> cvec f st = 0%N.
Proof.
  induction f as [|f IH]; intros st H E; [reflexivity|]. rewrite shrink_S in E.
  change (fst (lfsr st)) with (taps st) in E. cbn [cvec]. destruct (taps st); [discriminate|].
  rewrite (lstep_lfsr st) by auto. rewrite lstep_lfsr by (apply lfsr_st80; auto).
  rewrite IH by (auto using lfsr_st80). reflexivity.
Qed.
Lemma shrink_80 : forall st, st80 st -> st <> 0%N -> shrink 80 st <> None.
Proof.
  intros st H Hn E. apply Hn. rewrite <- (back80_ok st H). rewrite (shrink_none 80 st H E).
  apply (lin_0 (fun x => rp x back80)). apply rp_lin.
Qed.
Lemma shrink_more : forall f st r k, shrink f st = Some r -> shrink (f + k) st = Some r.
Proof.
  induction f as [|f IH]; intros st r k E; [discriminate|]. rewrite shrink_S in E.
  change (S f + k) with (S (f + k)). rewrite shrink_S. destruct (fst (lfsr st)); auto.
Qed.
Lemma shrink_state : forall f st b st', st80 st -> st <> 0%N -> shrink f st = Some (b, st') -> st80 st' /\ st' <> 0%N.
Proof.
  induction f as [|f IH]; intros st b st' H Hn E; [discriminate|]. rewrite shrink_S in E.
  destruct (fst (lfsr st)).
  - apply some_inj in E. replace st' with (snd (lfsr (snd (lfsr st)))) by (rewrite E; reflexivity).
    split; [auto using lfsr_st80|]. auto using lfsr_nonzero, lfsr_st80.
  - apply IH in E; auto using lfsr_nonzero, lfsr_st80.
Qed.

(** ** The stream of bits *)

Lemma init_win : forall s, grain s -> win s 160 (init_state 0).
Proof.
  intros s [H1 H2]. unfold init_state. cbn [N.eqb].
  assert (X : forall k, win s k (Nat.iter k (fun st => snd (lfsr st)) (2 ^ 80 - 1)%N)).
  { induction k as [|k IH].
    - split; [reflexivity|]. intros i Hi. cbn [Nat.iter]. rewrite H1 by lia.
      apply (N.ones_spec_low 80). lia.
    - cbn [Nat.iter nat_rect]. apply lfsr_win; auto. }
  apply X.
Qed.

(** a sequence obeying the recurrence through a given state *)
Definition seq_of (st : N) (i : nat) : bool := N.testbit (Nat.iter i (fun st => snd (lfsr st)) st) 0.
Lemma iter_st80 : forall st k, st80 st -> st80 (Nat.iter k (fun st => snd (lfsr st)) st).
Proof. induction k as [|k IH]; intros H; [exact H|]. cbn [Nat.iter nat_rect]. apply lfsr_st80; auto. Qed.
Lemma iter_bit : forall st k i j, st80 st -> i + j < 80 ->
  N.testbit (Nat.iter (k + j) (fun st => snd (lfsr st)) st) (N.of_nat i) =
  N.testbit (Nat.iter k (fun st => snd (lfsr st)) st) (N.of_nat (i + j)).
Proof.
  intros st k i j. revert i. induction j as [|j IH]; intros i H Hi.
  - rewrite !Nat.add_0_r. reflexivity.
  - rewrite Nat.add_succ_r. cbn [Nat.iter nat_rect]. rewrite lfsr_bit by (apply iter_st80; auto).
    destruct (N.eqb_spec (N.of_nat i) 79); [lia|].
    replace (N.of_nat i + 1)%N with (N.of_nat (S i)) by lia. rewrite IH by (auto; lia).
    do 2 f_equal. lia.
Qed.
Lemma seq_of_rec : forall st, st80 st -> grain_rec (seq_of st).
Proof.
  intros st H i. unfold seq_of.
  assert (B : forall j, j < 80 -> N.testbit (Nat.iter (i + j) (fun st => snd (lfsr st)) st) 0 =
    N.testbit (Nat.iter i (fun st => snd (lfsr st)) st) (N.of_nat j)).
  { intros j Hj. apply (iter_bit st i 0 j); auto. }
  rewrite (B 13), (B 23), (B 38), (B 51), (B 62) by lia.
  replace (i + 80) with (S i + 79) by lia.
  rewrite (iter_bit st (S i) 0 79 : st80 st -> 0 + 79 < 80 -> N.testbit _ 0 = _) by (auto; lia).
  cbn [Nat.iter nat_rect]. rewrite lfsr_bit by (apply iter_st80; auto).
  cbn [Nat.add]. change (N.of_nat 79 =? 79)%N with true. cbv iota. unfold taps.
  rewrite !xorb_assoc. reflexivity.
Qed.
Lemma seq_of_win : forall st, st80 st -> win (seq_of st) 0 st.
Proof.
  intros st H. split; [exact H|]. intros i Hi. unfold seq_of.
  symmetry. apply (iter_bit st 0 0 i); auto.
Qed.
Lemma grain_exists : grain (seq_of (2 ^ 80 - 1)).
Proof.
  split; [|apply seq_of_rec; reflexivity].
  intros i Hi. destruct (seq_of_win (2 ^ 80 - 1)%N) as [_ H]; [reflexivity|].
  rewrite <- (H i Hi : _ = seq_of _ i). apply (N.ones_spec_low 80). lia.
Qed.

Lemma shrink_win : forall s f t st b st', grain_rec s -> win s t st -> shrink f st = Some (b, st') ->
  exists k, k < f /\ s (t + 80 + 2 * k) = true /\ (forall k', k' < k -> s (t + 80 + 2 * k') = false) /\
    b = s (t + 80 + 2 * k + 1) /\ win s (t + 2 * k + 2) st'.
Proof.
  intros s f. induction f as [|f IH]; intros t st b st' Hs W E; [discriminate|].
  rewrite shrink_S in E.
  destruct (lfsr_win s t st Hs W) as [F1 W1]. destruct (lfsr_win s (S t) _ Hs W1) as [F2 W2].
  rewrite F1 in E. destruct (s (t + 80)) eqn:C.
  - apply some_inj in E. exists 0. split; [lia|]. rewrite Nat.mul_0_r, !Nat.add_0_r.
    split; [exact C|]. split; [intros; lia|]. rewrite E in F2, W2. cbn [fst snd] in F2, W2.
    split; [rewrite F2; f_equal; lia|]. replace (t + 2) with (S (S t)) by lia. exact W2.
  - destruct (IH (S (S t)) _ b st' Hs W2 E) as (k & Hk & K1 & K2 & K3 & K4).
    exists (S k). split; [lia|].
    split; [rewrite <- K1; f_equal; lia|]. split; [|split].
    + intros [|k'] Hk'; [rewrite Nat.mul_0_r, Nat.add_0_r; exact C|].
      rewrite <- (K2 k') by lia. f_equal. lia.
    + rewrite K3. f_equal. lia.
    + replace (t + 2 * S k + 2) with (S (S t) + 2 * k + 2) by lia. exact K4.
Qed.

Lemma init_ok : forall st, st80 st -> st80 (init_state st) /\ init_state st <> 0%N.
Proof.
  intros st H. unfold init_state. destruct (N.eqb_spec st 0) as [->|Hn]; [|auto].
  assert (X : forall k x, st80 x -> x <> 0%N -> st80 (Nat.iter k (fun st => snd (lfsr st)) x) /\
     Nat.iter k (fun st => snd (lfsr st)) x <> 0%N).
  { induction k as [|k IH]; intros x H1 H2; [auto|]. cbn [Nat.iter nat_rect].
    destruct (IH x H1 H2). auto using lfsr_st80, lfsr_nonzero. }
  apply X; [reflexivity|discriminate].
Qed.
Lemma getrandbit_total : forall fuel st, st80 st -> 80 <= fuel ->
  exists b st', getrandbit fuel st = Some (b, st') /\ getrandbit 80 st = Some (b, st') /\
    st80 st' /\ st' <> 0%N.
Proof.
  intros fuel st H Hf. unfold getrandbit. destruct (init_ok st H) as [H1 H2].
  destruct (shrink 80 (init_state st)) as [[b st']|] eqn:E; [|destruct (shrink_80 _ H1 H2 E)].
  exists b, st'. split; [replace fuel with (80 + (fuel - 80)) by lia; apply shrink_more; exact E|].
  split; [reflexivity|]. apply (shrink_state 80 _ b st' H1 H2 E).
Qed.
Lemma randbit_total : forall st, st80 st -> exists b st', randbit st = Ok (b, st') /\ st80 st' /\ st' <> 0%N.
Proof.
  intros st H. destruct (getrandbit_total 80 st H (le_n _)) as (b & st' & E & _ & H').
  exists b, st'. unfold randbit. rewrite E. auto.
Qed.

(** the state and the number of the pair after n calls from the beginning *)
Fixpoint rounds (f : nat) (st : N) : nat :=
  match f with
  | O => 0
  | S f' => if fst (lfsr st) then 0 else S (rounds f' (snd (lfsr (snd (lfsr st)))))
  end.
Fixpoint after (n : nat) : N :=
  match n with
  | O => 0%N
  | S n' => match getrandbit 80 (after n') with Some (_, st) => st | None => 0%N end
  end.
Lemma after_st80 : forall n, st80 (after n).
Proof.
  induction n as [|n IH]; [reflexivity|]. cbn [after].
  destruct (getrandbit_total 80 (after n) IH (le_n _)) as (b & st' & E & _ & H & _). rewrite E. exact H.
Qed.
Lemma shrink_rounds : forall s f t st b st', grain_rec s -> win s t st -> shrink f st = Some (b, st') ->
  s (t + 80 + 2 * rounds f st) = true /\
  (forall k', k' < rounds f st -> s (t + 80 + 2 * k') = false) /\ rounds f st < f.
Proof.
  intros s f. induction f as [|f IH]; intros t st b st' Hs W E; [discriminate|].
  rewrite shrink_S in E. cbn [rounds].
  destruct (lfsr_win s t st Hs W) as [F1 W1]. destruct (lfsr_win s (S t) _ Hs W1) as [F2 W2].
  rewrite F1 in *. destruct (s (t + 80)) eqn:C.
  - rewrite Nat.mul_0_r, Nat.add_0_r. split; [exact C|]. split; [intros; lia|lia].
  - destruct (IH (S (S t)) _ b st' Hs W2 E) as (K1 & K2 & K3).
    split; [rewrite <- K1; f_equal; lia|]. split; [|lia].
    intros [|k'] Hk'; [rewrite Nat.mul_0_r, Nat.add_0_r; exact C|].
    rewrite <- (K2 k') by lia. f_equal. lia.
Qed.

(** number of pairs consumed before call n *)
Fixpoint used (n : nat) : nat :=
  match n with O => 0 | S n' => used n' + rounds 80 (init_state (after n')) + 1 end.
Lemma after_win : forall s n, grain s -> win s (160 + 2 * used n) (init_state (after n)).
Proof.
  intros s n G. induction n as [|n IH]; [apply init_win; exact G|].
  destruct (getrandbit_total 80 (after n) (after_st80 n) (le_n _)) as (b & st' & E & _ & H1 & H2).
  cbn [after used]. rewrite E.
  replace (init_state st') with st'
    by (unfold init_state; destruct (N.eqb_spec st' 0); [contradiction|reflexivity]).
  unfold getrandbit in E.
  destruct (shrink_win s 80 _ _ b st' (proj2 G) IH E) as (k & Hk & K1 & K2 & K3 & K4).
  destruct (shrink_rounds s 80 _ _ b st' (proj2 G) IH E) as (R1 & R2 & R3).
  assert (Ek : k = rounds 80 (init_state (after n))).
  { destruct (lt_eq_lt_dec k (rounds 80 (init_state (after n)))) as [[L|L]|L]; [|exact L|].
    - rewrite R2 in K1 by exact L. discriminate.
    - rewrite K2 in R1 by exact L. discriminate. }
  replace (160 + 2 * (used n + rounds 80 (init_state (after n)) + 1)) with (160 + 2 * used n + 2 * k + 2) by lia.
  exact K4.
Qed.
Lemma stream : forall s, grain s -> exists (p : nat -> nat) (st : nat -> N),
  p 0 < 80 /\ (forall n, p n < p (S n) <= p n + 80) /\
  (forall k, s (240 + 2 * k) = true <-> exists n, p n = k) /\
  st 0 = 0%N /\ (forall n, getrandbit 80 (st n) = Some (s (240 + 2 * p n + 1), st (S n)) /\ st (S n) <> 0%N).
Proof.
  intros s G.
  assert (X : forall n, exists b st', getrandbit 80 (after n) = Some (b, st') /\ st' = after (S n) /\ st' <> 0%N /\
    let r := rounds 80 (init_state (after n)) in
    b = s (240 + 2 * (used n + r) + 1) /\ s (240 + 2 * (used n + r)) = true /\
    (forall k', k' < r -> s (240 + 2 * (used n + k')) = false) /\ r < 80).
  { intros n. destruct (getrandbit_total 80 (after n) (after_st80 n) (le_n _)) as (b & st' & E & _ & H1 & H2).
    exists b, st'. split; [exact E|]. split; [cbn [after]; rewrite E; reflexivity|]. split; [exact H2|].
    pose proof (after_win s n G) as IH. unfold getrandbit in E. cbv zeta.
    destruct (shrink_win s 80 _ _ b st' (proj2 G) IH E) as (k & Hk & K1 & K2 & K3 & K4).
    destruct (shrink_rounds s 80 _ _ b st' (proj2 G) IH E) as (R1 & R2 & R3).
    assert (Ek : k = rounds 80 (init_state (after n))).
    { destruct (lt_eq_lt_dec k (rounds 80 (init_state (after n)))) as [[L|L]|L]; [|exact L|].
      - rewrite R2 in K1 by exact L. discriminate.
      - rewrite K2 in R1 by exact L. discriminate. }
    rewrite <- Ek. split; [rewrite K3; f_equal; lia|]. split; [rewrite <- K1; f_equal; lia|].
    split; [|exact Hk]. intros k' Hk'. rewrite <- (K2 k' Hk'). f_equal. lia. }
  assert (Hp : forall n, used n + rounds 80 (init_state (after n)) < used (S n) + rounds 80 (init_state (after (S n)))
     <= used n + rounds 80 (init_state (after n)) + 80).
  { intros n. destruct (X (S n)) as (b & st' & _ & _ & _ & _ & _ & _ & R). cbn [used]. lia. }
  exists (fun n => used n + rounds 80 (init_state (after n))), after.
  split; [destruct (X 0) as (b & st' & _ & _ & _ & _ & _ & _ & R); cbn [used]; lia|].
  split; [exact Hp|]. split; [|split; [reflexivity|]].
  - intros k. split.
    + intros Hk.
      assert (U : exists n, used n <= k < used (S n)).
      { assert (Y : forall n, k < used n -> exists n, used n <= k < used (S n)).
        { induction n as [|n IH]; intros Hn; [cbn [used] in Hn; lia|].
          destruct (Nat.lt_ge_cases k (used n)); [auto|]. exists n. lia. }
        apply (Y (S k)). assert (Z : forall n, n <= used n).
        { induction n as [|n IH]; cbn [used]; lia. } specialize (Z (S k)). lia. }
      destruct U as [n [U1 U2]]. exists n. destruct (X n) as (b & st' & _ & _ & _ & _ & _ & F & _).
      cbn [used] in U2. destruct (Nat.lt_ge_cases (k - used n) (rounds 80 (init_state (after n)))) as [L|L]; [|lia].
      specialize (F _ L). replace (used n + (k - used n)) with k in F by lia. congruence.
    + intros [n <-]. destruct (X n) as (b & st' & _ & _ & _ & _ & T & _). exact T.
  - intros n. destruct (X n) as (b & st' & E & -> & N & Eb & _). split; [rewrite E, Eb; reflexivity|exact N].
Qed.
