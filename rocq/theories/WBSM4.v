(** The white-box tables of test/WBSM4/WBMatrix compute SM4. *)
From Coq Require Import Arith NArith ZArith List Bool Lia.
From Verif Require Import Base Tables Model Spec LinAlg Mem Cons Parity Trans Mul Rand GenPair Com Affine
  ModelSM4 SpecSM4 SM4.
Import ListNotations.

(** ** The older matrix functions *)

Lemma wp_flip32 : forall t r c (Q : mat -> Prop), wfM W32 t -> r < 32 -> c < 32 ->
  (forall t', wfM W32 t' -> (forall r' c', r' < 32 -> c' < 32 ->
     mbit W32 t' r' c' = xorb (mbit W32 t r' c') (Nat.eqb r' r && Nat.eqb c' c)) -> Q t') ->
  wp (mset t r 0 (N.lxor (word t r 0) (2 ^ N.of_nat (31 - c)))) Q.
Proof.
  intros t r c Q Wt Hr Hc HQ. apply wp_mset with (w := W32); auto using wfM_shape.
  intros t' St Nt. pose proof Wt as Wt'. apply mat_of_iff in Wt'. destruct Wt' as [_ Bt]. apply HQ.
  - apply mat_of_iff. split; auto. intros i k. rewrite Nt. destruct (_ && _)%bool; auto.
    apply lxor_bound; auto. apply pow2_bound. change (wb W32) with 32. lia.
  - intros r' c' Hr' Hc'. unfold mbit at 1. rewrite Nt.
    destruct (Nat.eqb_spec r' r) as [->|]; cbn [andb].
    + pose proof (xor_bit W32 0 c c' (fun k => word t r k) ltac:(lia) ltac:(change (wb W32) with 32; lia)) as X.
      rewrite Nat.mul_0_r, Nat.sub_0_r in X. exact X.
    + rewrite xorb_false_r. reflexivity.
Qed.

Lemma land_pow2_0 : forall x q, N.eqb (N.land x (2 ^ q)) 0 = negb (N.testbit x q).
Proof.
  intros x q. destruct (N.testbit x q) eqn:E; cbn [negb].
  - apply N.eqb_neq. intros H. assert (T : N.testbit (N.land x (2 ^ q)) q = true).
    { rewrite N.land_spec, E, N.pow2_bits_true. reflexivity. }
    rewrite H, N.bits_0 in T. discriminate.
  - apply N.eqb_eq. apply N.bits_inj. intros k. rewrite N.land_spec, N.bits_0, N.pow2_bits_eqb.
    destruct (N.eqb_spec q k) as [<-|]; [rewrite E|rewrite andb_false_r]; reflexivity.
Qed.

Lemma Mattrans_old_wp : forall m out, wfM W32 m -> shapeM W32 out ->
  wp (MattransM32_old m out) (fun r => wfM W32 r /\ feq 32 (mbit W32 r) (ftr (mbit W32 m))).
Proof.
  intros m out Hm Ho. unfold MattransM32_old. apply wp_bind. rewrite initM_ok by auto. apply wp_ok.
  apply wp_for_up with (I := fun i t => wfM W32 t /\
    forall r c, r < 32 -> c < 32 -> mbit W32 t r c = Nat.ltb c i && mbit W32 m c r).
  - lia.
  - split; [apply wf_zero|]. intros r c Hr Hc. apply mbit_zero; auto.
  - intros i t0 _ Hi [W0 H0].
    apply wp_for_up with (I := fun j t => wfM W32 t /\
      forall r c, r < 32 -> c < 32 ->
        mbit W32 t r c = (Nat.ltb c i || (Nat.eqb c i && Nat.ltb r j)) && mbit W32 m c r).
    + lia.
    + split; auto. intros r c Hr Hc. rewrite H0 by auto. change (Nat.ltb r 0) with false.
      rewrite andb_false_r, orb_false_r. reflexivity.
    + intros j t _ Hj [W1 H1]. apply wp_bind. apply wp_mget with (w := W32); auto using wfM_shape.
      apply wp_bind. apply (wp_idt W32); [exact Hj|]. change (wb W32 - 1 - j) with (31 - j).
      rewrite land_pow2_0.
      assert (E : N.testbit (word m i 0) (N.of_nat (31 - j)) = mbit W32 m i j).
      { unfold mbit. change (wb W32) with 32. rewrite Nat.div_small, Nat.mod_small by auto. reflexivity. }
      rewrite E. destruct (mbit W32 m i j) eqn:Eb; cbn [negb].
      * apply wp_bind. apply wp_mget with (w := W32); auto using wfM_shape.
        apply wp_bind. apply (wp_idt W32); [exact Hi|]. apply wp_flip32; auto.
        intros t' Wt' Ht'. split; auto. intros r c Hr Hc. rewrite Ht', H1 by auto.
        destruct (Nat.eqb_spec r j) as [->|], (Nat.eqb_spec c i) as [->|]; cbn [andb orb];
          rewrite ?andb_false_r, ?xorb_false_r;
          repeat match goal with |- context [Nat.ltb ?a ?b] => destruct (Nat.ltb_spec a b); try lia end;
          cbn [andb orb]; rewrite ?Eb; auto.
      * apply wp_ok. split; auto. intros r c Hr Hc. rewrite H1 by auto.
        destruct (Nat.eqb_spec r j) as [->|], (Nat.eqb_spec c i) as [->|]; cbn [andb orb]; auto;
          repeat match goal with |- context [Nat.ltb ?a ?b] => destruct (Nat.ltb_spec a b); try lia end;
          cbn [andb orb]; rewrite ?Eb; auto.
    + intros t [W1 H1]. split; auto. intros r c Hr Hc. rewrite H1 by auto.
      destruct (Nat.eqb_spec c i) as [->|];
        repeat match goal with |- context [Nat.ltb ?a ?b] => destruct (Nat.ltb_spec a b); try lia end;
        cbn [andb orb]; auto.
  - intros t [W1 H1]. split; auto. intros r c Hr Hc. rewrite H1 by auto.
    destruct (Nat.ltb_spec c 32); [|lia]. reflexivity.
Qed.

Lemma dot32 : forall r c, (r < 2 ^ 32)%N ->
  xorU32 LE (N.land r c) = Ok (b2n (xsum 32 (fun k => vbit W32 [r] k && vbit W32 [c] k))).
Proof.
  intros r c Hr. pose proof (dot_ok LE W32 [r] [c]) as D.
  rewrite and_words_ok in D by reflexivity. cbn [bind] in D. unfold mkv in D.
  cbn [nw seq map nth] in D. unfold and_elem in D. apply D; [|reflexivity].
  split; [reflexivity|]. constructor; auto.
Qed.
Lemma vbit_word : forall m i k, k < 32 -> vbit W32 [word m i 0] k = mbit W32 m i k.
Proof.
  intros m i k Hk. unfold vbit, mbit. change (wb W32) with 32. rewrite Nat.div_small by auto. reflexivity.
Qed.
Lemma word_bound32 : forall m i, wfM W32 m -> (word m i 0 < 2 ^ 32)%N.
Proof. intros m i H. apply mat_of_iff in H. destruct H as [_ B]. apply (B i 0). Qed.

Lemma MatMulMat_old_wp : forall m1 m2 out, wfM W32 m1 -> wfM W32 m2 -> shapeM W32 out ->
  wp (MatMulMatM32_old LE m1 m2 out) (fun r => wfM W32 r /\
    feq 32 (mbit W32 r) (fmul 32 (mbit W32 m1) (mbit W32 m2))).
Proof.
  intros m1 m2 out H1 H2 Ho. unfold MatMulMatM32_old. apply wp_bind. rewrite initM_ok by auto. apply wp_ok.
  apply wp_bind. eapply wp_mono; [apply Mattrans_old_wp; auto; apply (shape_fresh_m W32)|].
  intros tr [Wtr Ftr]. set (p := fmul 32 (mbit W32 m1) (mbit W32 m2)).
  apply wp_for_up with (I := fun i m => wfM W32 m /\
    forall r c, r < 32 -> c < 32 -> mbit W32 m r c = Nat.ltb r i && p r c).
  - lia.
  - split; [apply wf_zero|]. intros r c Hr Hc. apply mbit_zero; auto.
  - intros i t0 _ Hi [W0 H0].
    apply wp_for_up with (I := fun j t => wfM W32 t /\
      forall r c, r < 32 -> c < 32 ->
        mbit W32 t r c = (Nat.ltb r i || (Nat.eqb r i && Nat.ltb c j)) && p r c).
    + lia.
    + split; auto. intros r c Hr Hc. rewrite H0 by auto. change (Nat.ltb c 0) with false.
      rewrite andb_false_r, orb_false_r. reflexivity.
    + intros j t _ Hj [W1 E1]. apply wp_bind. apply wp_mget with (w := W32); auto using wfM_shape.
      apply wp_bind. apply wp_mget with (w := W32); auto using wfM_shape.
      rewrite dot32 by (apply word_bound32; auto). cbn [bind].
      assert (EP : xsum 32 (fun k => vbit W32 [word m1 i 0] k && vbit W32 [word tr j 0] k) = p i j).
      { apply xsum_ext. intros k Hk. rewrite !vbit_word by auto. rewrite Ftr by auto. reflexivity. }
      rewrite EP. destruct (p i j) eqn:Eb; cbn [b2n N.eqb].
      * apply wp_bind. apply (wp_idt W32); [exact Hj|].
        apply wp_bind. apply wp_mget with (w := W32); auto using wfM_shape. apply wp_flip32; auto.
        intros t' Wt' Ht'. split; auto. intros r c Hr Hc. rewrite Ht', E1 by auto.
        destruct (Nat.eqb_spec r i) as [->|], (Nat.eqb_spec c j) as [->|]; cbn [andb orb];
          rewrite ?andb_false_r, ?xorb_false_r;
          repeat match goal with |- context [Nat.ltb ?a ?b] => destruct (Nat.ltb_spec a b); try lia end;
          cbn [andb orb]; rewrite ?Eb; auto.
      * apply wp_ok. split; auto. intros r c Hr Hc. rewrite E1 by auto.
        destruct (Nat.eqb_spec r i) as [->|], (Nat.eqb_spec c j) as [->|]; cbn [andb orb]; auto;
          repeat match goal with |- context [Nat.ltb ?a ?b] => destruct (Nat.ltb_spec a b); try lia end;
          cbn [andb orb]; rewrite ?Eb; auto.
    + intros t [W1 E1]. split; auto. intros r c Hr Hc. rewrite E1 by auto.
      destruct (Nat.eqb_spec r i) as [->|];
        repeat match goal with |- context [Nat.ltb ?a ?b] => destruct (Nat.ltb_spec a b); try lia end;
        cbn [andb orb]; auto.
  - intros t [W1 E1]. split; auto. intros r c Hr Hc. rewrite E1 by auto.
    destruct (Nat.ltb_spec r 32); [|lia]. reflexivity.
Qed.

(** ** Affine maps on numbers *)

Definition bv (w : width) (x : N) : fvec := vbit w [x].
Definition au (w : width) (f : aff) (x : N) : N :=
  match affineU1 LE w f x with Ok y => y | UB => 0%N end.
Definition one (w : width) : Prop := nw w = 1.

Lemma bv_lxor : forall w x y, one w -> veq (dim w) (bv w (N.lxor x y)) (vadd (bv w x) (bv w y)).
Proof.
  intros w x y Hw j Hj. unfold bv, vbit, vadd. rewrite dim_eq, Hw in Hj.
  rewrite Nat.div_small by lia. cbn [nth]. apply N.lxor_spec.
Qed.
Lemma bv_lxor_i : forall w x y i, one w -> i < dim w ->
  bv w (N.lxor x y) i = xorb (bv w x i) (bv w y i).
Proof. intros. apply bv_lxor; auto. Qed.
Lemma bv_ext : forall w x y, one w -> (x < 2 ^ N.of_nat (wb w))%N -> (y < 2 ^ N.of_nat (wb w))%N ->
  veq (dim w) (bv w x) (bv w y) -> x = y.
Proof.
  intros w x y Hw Hx Hy H. assert (E : [x] = [y]).
  { apply vbit_ext with (w := w); auto; split; rewrite ?Hw; try reflexivity; constructor; auto. }
  injection E. auto.
Qed.
Lemma au_spec : forall w f x, one w -> wfA w f ->
  affineU1 LE w f x = Ok (au w f x) /\ (au w f x < 2 ^ N.of_nat (wb w))%N /\
  veq (dim w) (bv w (au w f x)) (aapp w f (bv w x)).
Proof.
  intros w f x Hw Hf. unfold au, affineU1.
  destruct (affineU_spec LE w f [x] Hf) as (y & E & Wy & Hy); [unfold shapeV; rewrite Hw; reflexivity|].
  rewrite E. cbn [bind]. pose proof (proj1 Wy) as Ly. rewrite Hw in Ly.
  destruct y as [|a [|b y]]; try discriminate Ly. change (aget [a] 0) with (Ok a). cbv iota.
  split; [reflexivity|]. split; [|exact Hy]. destruct Wy as [_ B]. inversion B; auto.
Qed.

Definition pairN (w : width) (f g : aff) : Prop :=
  wfA w f /\ wfA w g /\
  (forall x, (x < 2 ^ N.of_nat (wb w))%N -> au w g (au w f x) = x) /\
  (forall x, (x < 2 ^ N.of_nat (wb w))%N -> au w f (au w g x) = x).

Lemma au_comp_id : forall w f g x, one w -> wfA w f -> wfA w g -> (x < 2 ^ N.of_nat (wb w))%N ->
  (forall y, veq (dim w) (aapp w g (aapp w f y)) y) -> au w g (au w f x) = x.
Proof.
  intros w f g x Hw Hf Hg Hx H. destruct (au_spec w f x Hw Hf) as (_ & B1 & E1).
  destruct (au_spec w g (au w f x) Hw Hg) as (_ & B2 & E2).
  apply (bv_ext w); auto. eapply veq_trans; [exact E2|].
  eapply veq_trans; [apply aapp_ext; exact E1|]. apply H.
Qed.
Lemma pairN_intro : forall w f g, one w -> wfA w f -> wfA w g ->
  (forall x, veq (dim w) (aapp w g (aapp w f x)) x) ->
  (forall x, veq (dim w) (aapp w f (aapp w g x)) x) -> pairN w f g.
Proof.
  intros w f g Hw Hf Hg H1 H2. split; auto. split; auto.
  split; intros x Hx; apply au_comp_id; auto.
Qed.

Lemma randV32_old_wp : forall v s, typedV W32 v ->
  wp (randV32_old LE v s) (fun r => wfV W32 (fst r)).
Proof.
  intros v s [L B]. destruct v as [|x [|y v]]; try discriminate L. inversion B as [|? ? Bx _]; subst.
  unfold randV32_old. cbn [aget nth_error bind].
  destruct (cus_random (reseed s)) as [a s1]. destruct (cus_random s1) as [b s2].
  cbn [aset length Nat.ltb Nat.leb upd bind wp fst].
  split; [reflexivity|]. constructor; [|constructor].
  change (2 ^ N.of_nat (wb W32))%N with (2 ^ N.of_nat 32)%N.
  apply put_sub_bound; [cbn; lia|]. apply put_sub_bound; [cbn; lia|]. exact Bx.
Qed.

Lemma genaffinepair_old_wp : forall f fi s, typedM W32 (amat f) -> typedV W32 (avec f) -> shapeA W32 fi ->
  wp (genaffinepairM32_old LE f fi s) (fun r => let '(g, gi, s') := r in pairN W32 g gi).
Proof.
  intros f fi s Hm Hv [Hmi Hvi]. unfold genaffinepairM32_old. apply wp_bind.
  eapply wp_mono; [apply genMatpair_wp; auto using typedM_shape|]. intros [[m v] s1] (Wm & Wv & Hinv & _).
  apply wp_bind. eapply wp_mono; [apply randV32_old_wp; auto|]. intros [c s2] Wc. cbn [fst] in Wc.
  apply wp_bind. eapply wp_mono; [apply MatMulVec_wp; auto using wfM_typed, wfV_shape|].
  intros d [Wd Bd]. apply wp_ok.
  destruct (aff_inverse W32 (mkaff m c) (mkaff v d) Hinv Bd) as [I1 I2].
  apply pairN_intro; [reflexivity|split; auto|split; auto|exact I1|exact I2].
Qed.
Lemma genaffinepair8_wp : forall f fi s, typedM W8 (amat f) -> typedV W8 (avec f) -> shapeA W8 fi ->
  wp (genaffinepair LE W8 f fi s) (fun r => let '(g, gi, s') := r in pairN W8 g gi).
Proof.
  intros f fi s Hm Hv Hi. eapply wp_mono; [apply genaffinepair_wp; auto using typedM_shape|].
  intros [[g gi] s'] (Wg & Wgi & _ & I1 & I2). apply pairN_intro; auto. reflexivity.
Qed.

Lemma affinemix_old_wp : forall f g mix, wfA W32 f -> wfA W32 g -> shapeA W32 mix ->
  wp (affinemixM32_old LE f g mix) (fun h => wfA W32 h /\
    (forall x, veq 32 (aapp W32 h x) (aapp W32 f (aapp W32 g x)))).
Proof.
  intros f g mix [Hf1 Hf2] [Hg1 Hg2] [Hm1 Hm2]. unfold affinemixM32_old. apply wp_bind.
  eapply wp_mono; [apply MatMulMat_old_wp; auto|]. intros m [Em Fm]. apply wp_bind.
  eapply wp_mono; [apply MatMulVec_wp; auto using wfM_typed, wfV_shape|]. intros a [Ha Fa].
  pose proof Ha as Ha'. destruct Ha' as [La Ba].
  destruct a as [|a0 [|a1 a]]; try discriminate La. destruct Hf2 as [Lf Bf].
  destruct (avec f) as [|f0 [|f1 fv]] eqn:Ef; try discriminate Lf.
  cbn [aget nth_error bind aset length Nat.ltb Nat.leb upd]. apply wp_ok.
  inversion Ba as [|? ? Ba0 _]; subst. inversion Bf as [|? ? Bf0 _]; subst.
  split.
  - split; [exact Em|]. split; [reflexivity|]. constructor; [|constructor]. apply lxor_bound; auto.
  - intros x. unfold aapp. cbn [amat avec]. rewrite Ef.
    change (vbit W32 [N.lxor a0 f0]) with (bv W32 (N.lxor a0 f0)).
    rewrite bv_lxor by reflexivity. change (dim W32) with 32 in *.
    rewrite Fm, fmul_fapp, fapp_vadd. unfold bv. rewrite Fa. intros i Hi. unfold vadd.
    rewrite xorb_assoc. reflexivity.
Qed.

Lemma au_mix : forall w f g h x, one w -> wfA w f -> wfA w g -> wfA w h ->
  (forall y, veq (dim w) (aapp w h y) (aapp w f (aapp w g y))) -> au w h x = au w f (au w g x).
Proof.
  intros w f g h x Hw Hf Hg Hh H.
  destruct (au_spec w h x Hw Hh) as (_ & B1 & E1). destruct (au_spec w g x Hw Hg) as (_ & B2 & E2).
  destruct (au_spec w f (au w g x) Hw Hf) as (_ & B3 & E3).
  apply (bv_ext w); auto. rewrite E1, H, E3. apply aapp_ext. symmetry. exact E2.
Qed.
Lemma au_xor3 : forall w f x y z, one w -> wfA w f ->
  au w f (N.lxor (N.lxor x y) z) = N.lxor (N.lxor (au w f x) (au w f y)) (au w f z).
Proof.
  intros w f x y z Hw Hf.
  destruct (au_spec w f x Hw Hf) as (_ & B1 & E1). destruct (au_spec w f y Hw Hf) as (_ & B2 & E2).
  destruct (au_spec w f z Hw Hf) as (_ & B3 & E3).
  destruct (au_spec w f (N.lxor (N.lxor x y) z) Hw Hf) as (_ & B4 & E4).
  apply (bv_ext w); auto; [repeat apply lxor_bound; auto|].
  intros i Hi. rewrite E4 by auto. rewrite !bv_lxor_i by auto. rewrite E1, E2, E3 by auto. unfold aapp.
  assert (G : veq (dim w) (fapp (dim w) (mbit w (amat f)) (bv w (N.lxor (N.lxor x y) z)))
     (vadd (vadd (fapp (dim w) (mbit w (amat f)) (bv w x)) (fapp (dim w) (mbit w (amat f)) (bv w y)))
           (fapp (dim w) (mbit w (amat f)) (bv w z)))).
  { rewrite bv_lxor by auto. rewrite fapp_vadd. rewrite bv_lxor by auto. rewrite fapp_vadd. reflexivity. }
  unfold vadd at 1. rewrite G by auto. unfold vadd.
  destruct (fapp (dim w) (mbit w (amat f)) (bv w x) i), (fapp (dim w) (mbit w (amat f)) (bv w y) i),
    (fapp (dim w) (mbit w (amat f)) (bv w z) i), (vbit w (avec f) i); reflexivity.
Qed.

(** ** The matrix of L *)

Lemma bv32_bit : forall x i, i < 32 -> bv W32 x i = N.testbit x (N.of_nat (31 - i)).
Proof.
  intros x i Hi. unfold bv, vbit. change (wb W32) with 32. rewrite Nat.div_small, Nat.mod_small by auto.
  reflexivity.
Qed.
Lemma bv8_bit : forall x i, i < 8 -> bv W8 x i = N.testbit x (N.of_nat (7 - i)).
Proof.
  intros x i Hi. unfold bv, vbit. change (wb W8) with 8. rewrite Nat.div_small, Nat.mod_small by auto.
  reflexivity.
Qed.
Lemma rotl_bit : forall x n k, (x < 2 ^ 32)%N -> (n <= 32)%N -> (k < 32)%N ->
  N.testbit (rotl x n) k = if (k <? n)%N then N.testbit x (k + (32 - n)) else N.testbit x (k - n).
Proof.
  intros x n k Hx Hn Hk. rewrite <- (ROTL_low UL32) by auto. unfold low, ROTL, SHL, ulw.
  rewrite mod_bits, N.lor_spec, mod_bits.
  replace (N.land x 4294967295) with x.
  2:{ change 4294967295%N with (N.ones 32). rewrite N.land_ones. symmetry. apply N.mod_small. auto. }
  cbn [ulbits]. destruct (N.ltb_spec k 32); [|lia]. rewrite !andb_true_r.
  rewrite N.shiftr_spec by lia. destruct (N.ltb_spec k n).
  - rewrite N.shiftl_spec_low by auto. reflexivity.
  - rewrite N.shiftl_spec_high by lia. rewrite (testbit_high x 32 (k + (32 - n))) by (auto; lia).
    apply orb_false_r.
Qed.
Lemma bv_rotl : forall x n i, (x < 2 ^ 32)%N -> n <= 32 -> i < 32 ->
  bv W32 (rotl x (N.of_nat n)) i = bv W32 x ((i + n) mod 32).
Proof.
  intros x n i Hx Hn Hi. rewrite !bv32_bit by (auto; apply Nat.mod_upper_bound; lia).
  rewrite rotl_bit by (auto; lia).
  destruct (N.ltb_spec (N.of_nat (31 - i)) (N.of_nat n)); f_equal.
  - replace ((i + n) mod 32) with (i + n - 32).
    + lia.
    + replace (i + n) with (i + n - 32 + 1 * 32) at 2 by lia. rewrite Nat.mod_add by lia.
      symmetry. apply Nat.mod_small. lia.
  - rewrite Nat.mod_small by lia. lia.
Qed.
Definition csl_cols (i : nat) : list nat := map (fun n => (i + n) mod 32) [0; 2; 10; 18; 24].
Definition csl_mat : mat := map (fun x => [x]) wb_csl.
Lemma csl_check : forallb (fun i => forallb (fun k =>
  Bool.eqb (mbit W32 csl_mat i k) (fold_right xorb false (map (Nat.eqb k) (csl_cols i)))) (seq 0 32)) (seq 0 32) = true.
Proof. vm_compute. reflexivity. Qed.
Lemma csl_bits : forall i k, i < 32 -> k < 32 ->
  mbit W32 csl_mat i k = fold_right xorb false (map (Nat.eqb k) (csl_cols i)).
Proof.
  intros i k Hi Hk. pose proof csl_check as H. rewrite forallb_forall in H. specialize (H i).
  rewrite in_seq, forallb_forall in H. specialize (H ltac:(lia) k). rewrite in_seq in H.
  apply eqb_prop. apply H. lia.
Qed.
Lemma xsum_eqb : forall n c f, c < n -> xsum n (fun k => Nat.eqb k c && f k) = f c.
Proof.
  intros n c f Hc. rewrite (xsum_single n c); auto; [rewrite Nat.eqb_refl; reflexivity|].
  intros k _ Hk. destruct (Nat.eqb_spec k c); [lia|reflexivity].
Qed.
Lemma fapp_csl : forall x, (x < 2 ^ 32)%N -> veq 32 (fapp 32 (mbit W32 csl_mat) (bv W32 x)) (bv W32 (linL x)).
Proof.
  intros x Hx i Hi. unfold fapp.
  assert (E : forall l, (forall c, In c l -> c < 32) ->
    xsum 32 (fun k => fold_right xorb false (map (Nat.eqb k) l) && bv W32 x k)
    = fold_right xorb false (map (bv W32 x) l)).
  { induction l as [|c l IH]; intros Hl; cbn [map fold_right].
    - apply xsum_false. reflexivity.
    - rewrite (xsum_ext 32 _ (fun k => xorb (Nat.eqb k c && bv W32 x k)
        (fold_right xorb false (map (Nat.eqb k) l) && bv W32 x k))).
      + rewrite xsum_xorb, xsum_eqb, IH; auto.
        * intros d Hd. apply Hl. right. auto.
        * apply Hl. left. auto.
      + intros k _. destruct (Nat.eqb k c), (bv W32 x k), (fold_right xorb false (map (Nat.eqb k) l)); reflexivity. }
  rewrite (xsum_ext 32 _ (fun k => fold_right xorb false (map (Nat.eqb k) (csl_cols i)) && bv W32 x k)).
  2:{ intros k Hk. rewrite csl_bits by auto. reflexivity. }
  rewrite E.
  2:{ intros c Hc. apply in_map_iff in Hc. destruct Hc as (n & <- & _). apply Nat.mod_upper_bound. lia. }
  unfold csl_cols. cbn [map fold_right]. rewrite Nat.add_0_r, Nat.mod_small by auto.
  unfold linL. rewrite !bv_lxor_i by (auto; reflexivity). change 2%N with (N.of_nat 2). change 10%N with (N.of_nat 10).
  change 18%N with (N.of_nat 18). change 24%N with (N.of_nat 24).
  rewrite !bv_rotl by (auto; lia). rewrite xorb_false_r. reflexivity.
Qed.

(** ** Arrays of arrays *)

Definition at2 {A} (d : A) (t : list (list A)) (i j : nat) : A := nth j (nth i t []) d.
Definition at3 {A} (d : A) (t : list (list (list A))) (i j k : nat) : A := nth k (nth j (nth i t []) []) d.
Definition dims2 {A} (n m : nat) (t : list (list A)) : Prop :=
  length t = n /\ forall i, i < n -> length (nth i t []) = m.
Definition dims3 {A} (n m k : nat) (t : list (list (list A))) : Prop :=
  length t = n /\ forall i, i < n -> dims2 m k (nth i t []).

Lemma wp_get2 : forall A (d : A) n m t i j (Q : A -> Prop), dims2 n m t -> i < n -> j < m ->
  Q (at2 d t i j) -> wp (get2 t i j) Q.
Proof.
  intros A d n m t i j Q [L H] Hi Hj HQ. unfold get2. apply wp_bind.
  apply wp_aget with (d := []); [lia|]. apply wp_aget with (d := d); [rewrite H; auto|]. exact HQ.
Qed.
Lemma wp_set2 : forall A (d : A) n m t i j x (Q : list (list A) -> Prop), dims2 n m t -> i < n -> j < m ->
  (forall t', dims2 n m t' ->
     (forall i' j', at2 d t' i' j' = if (Nat.eqb i' i && Nat.eqb j' j)%bool then x else at2 d t i' j') ->
     (forall i', i' <> i -> nth i' t' [] = nth i' t []) -> Q t') ->
  wp (set2 t i j x) Q.
Proof.
  intros A d n m t i j x Q [L H] Hi Hj HQ. unfold set2. apply wp_bind.
  apply wp_aget with (d := []); [lia|]. apply wp_bind. apply wp_aset; [rewrite H; auto|].
  apply wp_aset; [lia|]. apply HQ.
  - split; [rewrite length_upd; auto|]. intros i' Hi'. rewrite nth_upd by lia.
    destruct (Nat.eqb_spec i' i) as [->|]; [rewrite length_upd|]; auto.
  - intros i' j'. unfold at2. rewrite nth_upd by lia. destruct (Nat.eqb_spec i' i) as [->|]; cbn [andb]; auto.
    rewrite nth_upd by (rewrite H; auto). reflexivity.
  - intros i' Hi'. rewrite nth_upd by lia. destruct (Nat.eqb_spec i' i); [lia|reflexivity].
Qed.
Lemma wp_get3 : forall A (d : A) n m l t i j k (Q : A -> Prop), dims3 n m l t -> i < n -> j < m -> k < l ->
  Q (at3 d t i j k) -> wp (get3 t i j k) Q.
Proof.
  intros A d n m l t i j k Q [L H] Hi Hj Hk HQ. unfold get3. apply wp_bind.
  apply wp_aget with (d := []); [lia|]. apply wp_get2 with (d := d) (n := m) (m := l); auto.
Qed.
Lemma wp_set3 : forall A (d : A) n m l t i j k x (Q : list (list (list A)) -> Prop),
  dims3 n m l t -> i < n -> j < m -> k < l ->
  (forall t', dims3 n m l t' ->
     (forall i' j' k', at3 d t' i' j' k' =
        if (Nat.eqb i' i && (Nat.eqb j' j && Nat.eqb k' k))%bool then x else at3 d t i' j' k') ->
     (forall i', i' <> i -> nth i' t' [] = nth i' t []) -> Q t') ->
  wp (set3 t i j k x) Q.
Proof.
  intros A d n m l t i j k x Q [L H] Hi Hj Hk HQ. unfold set3. apply wp_bind.
  apply wp_aget with (d := []); [lia|]. apply wp_bind.
  apply wp_set2 with (d := d) (n := m) (m := l); auto. intros r' Dr Hr _.
  apply wp_aset; [lia|]. apply HQ.
  - split; [rewrite length_upd; auto|]. intros i' Hi'. rewrite nth_upd by lia.
    destruct (Nat.eqb_spec i' i) as [->|]; auto.
  - intros i' j' k'. unfold at3. rewrite nth_upd by lia. destruct (Nat.eqb_spec i' i) as [->|]; cbn [andb]; auto.
    apply Hr.
  - intros i' Hi'. rewrite nth_upd by lia. destruct (Nat.eqb_spec i' i); [lia|reflexivity].
Qed.

(** ** The key-dependent S-boxes *)

Lemma initMatrixL_ok : initMatrixL (fresh_m W32) = Ok csl_mat.
Proof. vm_compute. reflexivity. Qed.
Lemma csl_wf : wfM W32 csl_mat.
Proof.
  split; [reflexivity|]. unfold csl_mat. apply Forall_forall. intros r Hr.
  apply in_map_iff in Hr. destruct Hr as (x & <- & Hx). split; [reflexivity|]. constructor; [|constructor].
  assert (H : forallb (fun x => N.ltb x (2 ^ 32)) wb_csl = true) by (vm_compute; reflexivity).
  rewrite forallb_forall in H. apply N.ltb_lt. apply (H x Hx).
Qed.

Definition sbox_ok (rk : nat -> N) (S : list (list (list N))) (i d j : nat) : Prop :=
  at3 0%N S i d j = sbox (N.lxor (N.of_nat j) (byte (rk i) (N.of_nat (3 - d)))).

Lemma secret_sbox_wp : forall sk rk S, keys_ok sk rk -> dims3 32 4 256 S ->
  wp (sm4_wb_gen_secrect_sbox sk S) (fun S' => dims3 32 4 256 S' /\
    forall i d j, i < 32 -> d < 4 -> j < 256 -> sbox_ok rk S' i d j).
Proof.
  intros sk rk S [Lk Hk] DS. unfold sm4_wb_gen_secrect_sbox. apply wp_bind.
  apply wp_for_up with (I := fun i key => length key = 32 /\ forall j, j < i -> nth j key 0%N = rk j).
  { lia. } { split; [reflexivity|]. intros; lia. }
  { intros i key _ Hi [L H]. apply wp_bind. apply wp_aget with (d := 0%N); [lia|]. apply wp_aset; [lia|].
    rewrite length_upd. split; auto. intros j Hj. rewrite nth_upd by lia.
    destruct (Nat.eqb_spec j i) as [->|]; [apply Hk; auto|apply H; lia]. }
  intros key [L H].
  apply wp_for_up with (I := fun i S => dims3 32 4 256 S /\
    forall i' d j, d < 4 -> j < 256 -> i' < i -> sbox_ok rk S i' d j).
  { lia. } { split; auto. intros; lia. }
  { clear S DS. intros i S _ Hi [DS HS].
    apply wp_for_up with (I := fun j S => dims3 32 4 256 S /\
      forall i' d j', d < 4 -> j' < 256 -> (i' < i \/ i' = i /\ j' < j) -> sbox_ok rk S i' d j').
    { lia. } { split; auto. intros i' d j' Hd Hj [?|[? ?]]; [auto|lia]. }
    { clear S DS HS. intros j S _ Hj [DS HS].
      apply wp_for_up with (I := fun d S => dims3 32 4 256 S /\
        forall i' d' j', d' < 4 -> j' < 256 -> (i' < i \/ i' = i /\ (j' < j \/ j' = j /\ d' < d)) -> sbox_ok rk S i' d' j').
      { lia. } { split; auto. intros i' d' j' Hd Hj' [?|[? [?|[? ?]]]]; [auto|auto|lia]. }
      { clear S DS HS. intros d S _ Hd [DS HS]. apply wp_bind. apply wp_aget with (d := 0%N); [lia|].
        rewrite H by auto.
        replace (N.of_nat (24 - 8 * d)) with (8 * N.of_nat (3 - d))%N by lia. rewrite land_byte.
        assert (B : (N.lxor (N.of_nat j) (byte (rk i) (N.of_nat (3 - d))) < 256)%N).
        { apply xor_byte; [lia|apply byte_bound]. }
        apply wp_bind. apply wp_aget with (d := 0%N).
        { change (length wb_SBOX) with 256. lia. }
        change wb_SBOX with sm4_SboxTable. rewrite sbox_nth by auto.
        apply wp_set3 with (d := 0%N) (n := 32) (m := 4) (l := 256); auto.
        intros S' DS' HS' _. split; auto. intros i' d' j' Hd' Hj' Hc. unfold sbox_ok. rewrite HS'.
        destruct (Nat.eqb_spec i' i) as [->|], (Nat.eqb_spec d' d) as [->|], (Nat.eqb_spec j' j) as [->|];
          cbn [andb]; auto; apply HS; auto; lia. }
      intros S' [DS' HS']. split; auto. intros i' d j' Hd Hj' Hc. apply HS'; auto. lia. }
    intros S' [DS' HS']. split; auto. intros i' d j Hd Hj Hc. apply HS'; auto. lia. }
  intros S' [DS' HS']. split; auto.
Qed.

(** ** Bytes of words *)

Lemma bv_byte : forall x q c, q < 4 -> c < 8 ->
  bv W8 (byte x (N.of_nat (3 - q))) c = bv W32 x (8 * q + c).
Proof.
  intros x q c Hq Hc. rewrite bv8_bit, bv32_bit by lia. rewrite byte_bits.
  destruct (N.ltb_spec (N.of_nat (7 - c)) 8); [|lia]. rewrite andb_true_r. f_equal. lia.
Qed.
Lemma bv_word : forall b0 b1 b2 b3 q c, (b0 < 256)%N -> (b1 < 256)%N -> (b2 < 256)%N -> (b3 < 256)%N ->
  q < 4 -> c < 8 -> bv W32 (word_of b0 b1 b2 b3) (8 * q + c) = bv W8 (nth q [b0; b1; b2; b3] 0%N) c.
Proof.
  intros b0 b1 b2 b3 q c H0 H1 H2 H3 Hq Hc. rewrite <- bv_byte by auto.
  destruct (byte_word b0 b1 b2 b3 H0 H1 H2 H3) as (E3 & E2 & E1 & E0).
  do 4 (destruct q as [|q]; [cbn [nth Nat.sub]; f_equal; assumption|]). lia.
Qed.

Lemma ec_action : forall a0 a1 a2 a3 out, wfA W8 a0 -> wfA W8 a1 -> wfA W8 a2 -> wfA W8 a3 ->
  typedM W32 (amat out) -> typedV W32 (avec out) ->
  wp (affinecom LE C8to32 [a0; a1; a2; a3] out) (fun h => wfA W32 h /\
    forall x, au W32 h x = word_of (au W8 a0 (byte x 3)) (au W8 a1 (byte x 2))
                                   (au W8 a2 (byte x 1)) (au W8 a3 (byte x 0))).
Proof.
  intros a0 a1 a2 a3 out H0 H1 H2 H3 Hm Hv.
  eapply wp_mono; [apply affinecom_wp; auto using typedM_shape; repeat constructor; auto|].
  intros h (Wh & Bm & Bv). split; [exact Wh|]. intros x.
  change (com_tgt C8to32) with W32 in *. change (com_src C8to32) with W8 in *.
  change (dim W32) with 32 in *. change (dim W8) with 8 in *.
  destruct (au_spec W32 h x eq_refl Wh) as (_ & BB & EE).
  assert (S8 : forall f y, wfA W8 f -> (au W8 f y < 256)%N /\ veq 8 (bv W8 (au W8 f y)) (aapp W8 f (bv W8 y))).
  { intros f y Hf. destruct (au_spec W8 f y eq_refl Hf) as (_ & A & B). split; auto. }
  apply (bv_ext W32); auto; [reflexivity|apply word_bound; apply S8; auto|].
  intros j Hj. change (dim W32) with 32 in *. rewrite EE by auto.
  pose proof (affinecom_action C8to32 [a0; a1; a2; a3] h [x]
    [[byte x 3]; [byte x 2]; [byte x 1]; [byte x 0]] eq_refl Bm Bv) as A.
  change (com_tgt C8to32) with W32 in A. change (com_src C8to32) with W8 in A.
  change (dim W32) with 32 in A. change (dim W8) with 8 in A.
  assert (D : j = 8 * (j / 8) + j mod 8) by (apply Nat.div_mod; lia).
  assert (Q : j / 8 < 4) by (apply Nat.div_lt_upper_bound; lia).
  assert (M : j mod 8 < 8) by (apply Nat.mod_upper_bound; lia).
  unfold bv at 1. rewrite (A) with (d := a0); auto.
  2:{ clear. intros j Hj.
      assert (D : j = 8 * (j / 8) + j mod 8) by (apply Nat.div_mod; lia).
      assert (Q : j / 8 < 4) by (apply Nat.div_lt_upper_bound; lia).
      assert (M : j mod 8 < 8) by (apply Nat.mod_upper_bound; lia).
      fold (bv W32 x). rewrite D at 1. rewrite <- bv_byte by auto.
      generalize dependent (j / 8). intros q _ Hq. unfold bv.
      do 4 (destruct q as [|q]; [reflexivity|]). lia. }
  rewrite D at 4. rewrite bv_word by (auto; apply S8; auto).
  generalize dependent (j / 8). intros q _ Hq. clear A.
  do 4 (destruct q as [|q]; [cbn [nth]; symmetry; apply S8; auto|]). lia.
Qed.

(** ** The random affine maps *)

Definition naff : aff := mkaff [] [].
Definition typedA (w : width) (f : aff) : Prop := typedM w (amat f) /\ typedV w (avec f).
Lemma wfA_typed : forall w f, wfA w f -> typedA w f.
Proof. intros w f [H1 H2]. split; auto using wfM_typed, wfV_typed. Qed.
Lemma typedA_shape : forall w f, typedA w f -> shapeA w f.
Proof. intros w f [H1 H2]. split; auto using typedM_shape, typedV_shape. Qed.
Lemma wfA_shape : forall w f, wfA w f -> shapeA w f.
Proof. intros. apply typedA_shape, wfA_typed; auto. Qed.

Definition arr2 (w : width) (n m : nat) (t : list (list aff)) : Prop :=
  dims2 n m t /\ forall i j, i < n -> j < m -> typedA w (at2 naff t i j).
Definition arr3 (w : width) (n m l : nat) (t : list (list (list aff))) : Prop :=
  dims3 n m l t /\ forall i j k, i < n -> j < m -> k < l -> typedA w (at3 naff t i j k).

Lemma wp_set_arr2 : forall w n m t i j x (Q : list (list aff) -> Prop), arr2 w n m t -> i < n -> j < m ->
  typedA w x ->
  (forall t', arr2 w n m t' ->
     (forall i' j', at2 naff t' i' j' = if (Nat.eqb i' i && Nat.eqb j' j)%bool then x else at2 naff t i' j') -> Q t') ->
  wp (set2 t i j x) Q.
Proof.
  intros w n m t i j x Q [D H] Hi Hj Hx HQ. apply wp_set2 with (d := naff) (n := n) (m := m); auto.
  intros t' D' H' _. apply HQ; auto. split; auto. intros i' j' Hi' Hj'. rewrite H'.
  destruct (_ && _)%bool; auto.
Qed.
Lemma wp_set_arr3 : forall w n m l t i j k x (Q : list (list (list aff)) -> Prop), arr3 w n m l t ->
  i < n -> j < m -> k < l -> typedA w x ->
  (forall t', arr3 w n m l t' ->
     (forall i' j' k', at3 naff t' i' j' k' =
        if (Nat.eqb i' i && (Nat.eqb j' j && Nat.eqb k' k))%bool then x else at3 naff t i' j' k') -> Q t') ->
  wp (set3 t i j k x) Q.
Proof.
  intros w n m l t i j k x Q [D H] Hi Hj Hk Hx HQ.
  apply wp_set3 with (d := naff) (n := n) (m := m) (l := l); auto.
  intros t' D' H' _. apply HQ; auto. split; auto. intros i' j' k' Hi' Hj' Hk'. rewrite H'.
  destruct (_ && _)%bool; auto.
Qed.

Record row_good (P : list (list aff)) (E : list (list (list aff))) (EC Q : list (list aff)) (r : nat) : Prop :=
  { rg_P : pairN W32 (at2 naff P r 0) (at2 naff P r 1);
    rg_E : forall j, j < 4 -> pairN W8 (at3 naff E r j 0) (at3 naff E r j 1);
    rg_EC : wfA W32 (at2 naff EC r 1);
    rg_ECa : forall x, au W32 (at2 naff EC r 1) x =
      word_of (au W8 (at3 naff E r 0 1) (byte x 3)) (au W8 (at3 naff E r 1 1) (byte x 2))
              (au W8 (at3 naff E r 2 1) (byte x 1)) (au W8 (at3 naff E r 3 1) (byte x 0));
    rg_Q : pairN W32 (at2 naff Q r 0) (at2 naff Q r 1) }.

Definition glob_typed (g : wbglob) : Prop :=
  arr2 W32 36 2 (gP g) /\ arr3 W8 36 4 2 (gE g) /\ arr2 W32 36 2 (gEC g) /\ arr2 W32 36 2 (gQ g).

Lemma pairN_typed : forall w f g, pairN w f g -> typedA w f /\ typedA w g.
Proof. intros w f g (H1 & H2 & _). split; apply wfA_typed; auto. Qed.

Lemma gen_affine_wp : forall g s, glob_typed g ->
  wp (sm4_wb_gen_affine LE g s) (fun r => let (g', s') := r in
    glob_typed g' /\ gS g' = gS g /\
    forall r, r < 36 -> row_good (gP g') (gE g') (gEC g') (gQ g') r).
Proof.
  intros g s HG. unfold sm4_wb_gen_affine.
  apply wp_for_up with (I := fun i (st : wbglob * world) => let (g', s') := st in
    glob_typed g' /\ gS g' = gS g /\
    forall r, r < i -> row_good (gP g') (gE g') (gEC g') (gQ g') r).
  { lia. } { repeat split; auto; try apply HG; lia. }
  2:{ intros [g' s'] H. exact H. }
  intros i [h s0] _ Hi ((HP & HE & HEC & HQ) & HS & Hr).
  destruct HP as [DP TP]. apply wp_bind. apply wp_get2 with (d := naff) (n := 36) (m := 2); auto; try lia.
  apply wp_bind. apply wp_get2 with (d := naff) (n := 36) (m := 2); auto; try lia.
  apply wp_bind. eapply wp_mono.
  { apply genaffinepair_old_wp; try apply typedA_shape; apply TP; auto; lia. }
  intros [[f0 f1] s1] Hf. destruct (pairN_typed _ _ _ Hf) as [Tf0 Tf1].
  apply wp_bind. apply wp_set_arr2 with (w := W32) (n := 36) (m := 2); [split; auto|lia|lia|auto|]. intros P1 HP1 EP1.
  apply wp_bind. apply wp_set_arr2 with (w := W32) (n := 36) (m := 2); [auto|lia|lia|auto|]. intros P2 HP2 EP2.
  apply wp_bind.
  apply wp_for_up with (I := fun j (st : list (list (list aff)) * world) => let (E, s') := st in
    arr3 W8 36 4 2 E /\
    (forall j', j' < j -> pairN W8 (at3 naff E i j' 0) (at3 naff E i j' 1)) /\
    (forall r j' k, r < i -> at3 naff E r j' k = at3 naff (gE h) r j' k)).
  { lia. } { split; auto. split; auto. intros; lia. }
  { intros j [E s2] _ Hj (HE1 & Hp & Hfr). destruct HE1 as [DE TE].
    apply wp_bind. apply wp_get3 with (d := naff) (n := 36) (m := 4) (l := 2); auto; try lia.
    apply wp_bind. apply wp_get3 with (d := naff) (n := 36) (m := 4) (l := 2); auto; try lia.
    apply wp_bind. eapply wp_mono.
    { apply genaffinepair8_wp; try apply typedA_shape; apply TE; auto; lia. }
    intros [[e0 e1] s3] He. destruct (pairN_typed _ _ _ He) as [Te0 Te1].
    apply wp_bind. apply wp_set_arr3 with (w := W8) (n := 36) (m := 4) (l := 2); [split; auto|lia|lia|lia|auto|].
    intros E1 HE1 EE1.
    apply wp_bind. apply wp_set_arr3 with (w := W8) (n := 36) (m := 4) (l := 2); [auto|lia|lia|lia|auto|].
    intros E2 HE2 EE2. apply wp_ok. split; auto. split.
    - intros j' Hj'. rewrite !EE2, !EE1, Nat.eqb_refl. cbn [andb].
      destruct (Nat.eqb_spec j' j) as [->|]; cbn [andb Nat.eqb]; auto. apply Hp. lia.
    - intros r j' k Hr'. rewrite EE2, EE1. destruct (Nat.eqb_spec r i); [lia|]. cbn [andb]. auto. }
  intros [E1 s2] (HE1 & HEp & HEf). destruct HE1 as [DE1 TE1].
  do 4 (apply wp_bind; apply wp_get3 with (d := naff) (n := 36) (m := 4) (l := 2); auto; try lia).
  destruct HEC as [DEC TEC].
  apply wp_bind. apply wp_get2 with (d := naff) (n := 36) (m := 2); auto; try lia.
  apply wp_bind. eapply wp_mono.
  { apply ec_action; try (apply HEp; lia); apply TEC; auto; lia. }
  intros ec [Wec Aec].
  apply wp_bind. apply wp_set_arr2 with (w := W32) (n := 36) (m := 2);
    [split; auto|lia|lia|apply wfA_typed; auto|]. intros EC' HEC' EEC'.
  destruct HQ as [DQ TQ].
  apply wp_bind. apply wp_get2 with (d := naff) (n := 36) (m := 2); auto; try lia.
  apply wp_bind. apply wp_get2 with (d := naff) (n := 36) (m := 2); auto; try lia.
  apply wp_bind. eapply wp_mono.
  { apply genaffinepair_old_wp; try apply typedA_shape; apply TQ; auto; lia. }
  intros [[q0 q1] s3] Hq. destruct (pairN_typed _ _ _ Hq) as [Tq0 Tq1].
  apply wp_bind. apply wp_set_arr2 with (w := W32) (n := 36) (m := 2); [split; auto|lia|lia|auto|]. intros Q1 HQ1 EQ1.
  apply wp_bind. apply wp_set_arr2 with (w := W32) (n := 36) (m := 2); [auto|lia|lia|auto|]. intros Q2 HQ2 EQ2.
  apply wp_ok. split. { split; [exact HP2|]. split; [split; auto|]. split; [exact HEC'|exact HQ2]. }
  split; [exact HS|]. cbn [gP gE gEC gQ]. intros r Hr'.
  assert (HPe : forall k, k < 2 -> at2 naff P2 r k = if Nat.eqb r i then nth k [f0; f1] naff else at2 naff (gP h) r k).
  { intros k Hk. rewrite EP2, EP1. destruct (Nat.eqb_spec r i); cbn [andb]; auto.
    destruct k as [|[|k]]; cbn [Nat.eqb nth]; auto. lia. }
  assert (HQe : forall k, k < 2 -> at2 naff Q2 r k = if Nat.eqb r i then nth k [q0; q1] naff else at2 naff (gQ h) r k).
  { intros k Hk. rewrite EQ2, EQ1. destruct (Nat.eqb_spec r i); cbn [andb]; auto.
    destruct k as [|[|k]]; cbn [Nat.eqb nth]; auto. lia. }
  assert (HCe : at2 naff EC' r 1 = if Nat.eqb r i then ec else at2 naff (gEC h) r 1).
  { rewrite EEC'. destruct (Nat.eqb_spec r i); reflexivity. }
  destruct (Nat.eqb_spec r i) as [->|Hne].
  - split.
    + rewrite !HPe by lia. exact Hf.
    + exact HEp.
    + rewrite HCe. exact Wec.
    + intros x. rewrite HCe. apply Aec.
    + rewrite !HQe by lia. exact Hq.
  - destruct (Hr r ltac:(lia)) as [R1 R2 R3 R4 R5]. assert (Hlt : r < i) by lia. split.
    + rewrite !HPe by lia. exact R1.
    + intros j Hj. rewrite !HEf by auto. auto.
    + rewrite HCe. exact R3.
    + intros x. rewrite HCe, !HEf by auto. apply R4.
    + rewrite !HQe by lia. exact R5.
Qed.

(** ** The tables *)

Lemma split_QL_wp : forall QL, wfM W32 QL ->
  wp (split_QL QL) (fun L => length L = 4 /\ (forall j, j < 4 -> shapeM W32 (nth j L [])) /\
    forall j ii, j < 4 -> ii < 32 -> word (nth j L []) ii 0 = byte (word QL ii 0) (N.of_nat j)).
Proof.
  intros QL WQ. unfold split_QL.
  apply wp_for_up with (I := fun j L => length L = 4 /\ (forall j, j < 4 -> shapeM W32 (nth j L [])) /\
    forall j' ii, j' < j -> ii < 32 -> word (nth j' L []) ii 0 = byte (word QL ii 0) (N.of_nat j')).
  { lia. }
  { split; [reflexivity|]. split; [|intros; lia]. intros j Hj.
    do 4 (destruct j as [|j]; [apply (shape_fresh_m W32)|]). lia. }
  2:{ intros L H. exact H. }
  intros j L _ Hj (LL & SL & HL).
  apply wp_for_up with (I := fun ii L => length L = 4 /\ (forall j, j < 4 -> shapeM W32 (nth j L [])) /\
    forall j' i', i' < 32 -> (j' < j \/ j' = j /\ i' < ii) -> word (nth j' L []) i' 0 = byte (word QL i' 0) (N.of_nat j')).
  { lia. }
  { split; auto. split; auto. intros j' i' Hi' [?|[? ?]]; [auto|lia]. }
  2:{ intros L' (LL' & SL' & HL'). split; auto. split; auto. intros j' i' Hj' Hi'. apply HL'; auto. lia. }
  clear L LL SL HL. intros ii L _ Hii (LL & SL & HL).
  apply wp_bind. apply wp_mget with (w := W32); auto using wfM_shape.
  apply wp_bind. apply wp_aget with (d := []); [lia|].
  apply wp_bind. apply wp_mset with (w := W32); auto. intros m' Sm' Nm'.
  apply wp_aset; [lia|]. rewrite length_upd. split; auto. split.
  - intros j' Hj'. rewrite nth_upd by lia. destruct (Nat.eqb_spec j' j); auto.
  - intros j' i' Hi' Hc. rewrite nth_upd by lia. destruct (Nat.eqb_spec j' j) as [->|].
    + rewrite Nm'. destruct (Nat.eqb_spec i' ii) as [->|]; cbn [andb Nat.eqb].
      * replace (N.of_nat (8 * j)) with (8 * N.of_nat j)%N by lia. apply uchar_byte.
      * apply HL; auto. lia.
    + apply HL; auto. lia.
Qed.

Lemma dot8 : forall r c, (r < 256)%N ->
  xorU8 (N.land r c) = Ok (b2n (xsum 8 (fun k => bv W8 r k && bv W8 c k))).
Proof.
  intros r c Hr. pose proof (dot_ok LE W8 [r] [c]) as D.
  rewrite and_words_ok in D by reflexivity. cbn [bind] in D. unfold mkv in D.
  cbn [nw seq map nth] in D. unfold and_elem in D. apply D; [|reflexivity].
  split; [reflexivity|]. constructor; auto.
Qed.
Lemma ident_nth : forall i, i < 32 -> nth i wb_identM32 0%N = (2 ^ N.of_nat (31 - i))%N.
Proof. intros i Hi. exact (nth_idt W32 i Hi). Qed.

(** the contribution of byte d of the S-box output to QL tau *)
Definition part (QL : mat) (d : nat) (y : N) : fvec :=
  fun ii => xsum 8 (fun c => mbit W32 QL ii (8 * d + c) && bv W8 y c).

Lemma table_loop_wp : forall QL QLi d kd, wfM W32 QL -> length QLi = 4 ->
  (forall j, j < 4 -> shapeM W32 (nth j QLi [])) ->
  (forall j ii, j < 4 -> ii < 32 -> word (nth j QLi []) ii 0 = byte (word QL ii 0) (N.of_nat j)) -> d < 4 ->
  wp (for_up 0 32 (fun ii temp =>
    m <- aget QLi (3 - d) ;; x <- mget m ii 0 ;;
    t <- xorU8 (N.land (uchar x) kd) ;;
    if N.eqb t 0 then Ok temp else y <- aget wb_identM32 ii ;; Ok (N.lxor temp y)) 0%N)
    (fun y => (y < 2 ^ 32)%N /\ veq 32 (bv W32 y) (part QL d kd)).
Proof.
  intros QL QLi d kd WQ LQ SQ HQ Hd.
  apply wp_for_up with (I := fun ii y => (y < 2 ^ 32)%N /\
    forall j, j < 32 -> bv W32 y j = Nat.ltb j ii && part QL d kd j).
  { lia. }
  { split; [reflexivity|]. intros j Hj. rewrite bv32_bit by auto. apply N.bits_0. }
  2:{ intros y [B H]. split; auto. intros j Hj. rewrite H by auto. destruct (Nat.ltb_spec j 32); [reflexivity|lia]. }
  intros ii y _ Hii [B H]. apply wp_bind. apply wp_aget with (d := []); [lia|].
  apply wp_bind. apply wp_mget with (w := W32); auto; [apply SQ; lia|].
  rewrite HQ by lia. rewrite uchar_id by apply byte_bound. rewrite dot8 by apply byte_bound. cbn [bind].
  assert (E : xsum 8 (fun k => bv W8 (byte (word QL ii 0) (N.of_nat (3 - d))) k && bv W8 kd k) = part QL d kd ii).
  { apply xsum_ext. intros k Hk. f_equal. rewrite bv_byte by auto. apply vbit_word. lia. }
  rewrite E. destruct (part QL d kd ii) eqn:Ep; cbn [b2n N.eqb].
  - apply wp_bind. apply wp_aget with (d := 0%N); [exact Hii|]. rewrite ident_nth by auto. apply wp_ok.
    split; [apply lxor_bound; auto; apply pow2_bound; lia|].
    intros j Hj. rewrite bv_lxor_i by (auto; reflexivity). rewrite H by auto.
    rewrite (bv32_bit (2 ^ _)) by auto. rewrite N.pow2_bits_eqb.
    destruct (Nat.eq_dec j ii) as [->|].
    + rewrite N.eqb_refl, Ep. destruct (Nat.ltb_spec ii ii), (Nat.ltb_spec ii (S ii)); try lia. reflexivity.
    + destruct (N.eqb_spec (N.of_nat (31 - ii)) (N.of_nat (31 - j))); [lia|]. rewrite xorb_false_r.
      destruct (Nat.ltb_spec j ii), (Nat.ltb_spec j (S ii)); try lia; reflexivity.
  - apply wp_ok. split; auto. intros j Hj. rewrite H by auto.
    destruct (Nat.eq_dec j ii) as [->|]; [rewrite Ep, !andb_false_r; reflexivity|].
    destruct (Nat.ltb_spec j ii), (Nat.ltb_spec j (S ii)); try lia; reflexivity.
Qed.

(** what a table entry has to satisfy *)
Definition entry_ok (g : wbglob) (QL : mat) (i d k : nat) (y : N) : Prop :=
  (y < 2 ^ 32)%N /\
  veq 32 (bv W32 y) (part QL d (at3 0%N (gS g) i d (N.to_nat (au W8 (at3 naff (gE g) i d 0) (N.of_nat k))))).

Lemma table_entry_wp : forall g QL QLi i k d, glob_typed g -> dims3 32 4 256 (gS g) ->
  row_good (gP g) (gE g) (gEC g) (gQ g) i ->
  wfM W32 QL -> length QLi = 4 -> (forall j, j < 4 -> shapeM W32 (nth j QLi [])) ->
  (forall j ii, j < 4 -> ii < 32 -> word (nth j QLi []) ii 0 = byte (word QL ii 0) (N.of_nat j)) ->
  i < 32 -> k < 256 -> d < 4 ->
  wp (table_entry LE g QLi i k d) (entry_ok g QL i d k).
Proof.
  intros g QL QLi i k d (_ & [DE _] & _) DS RG WQ LQ SQ HQ Hi Hk Hd. unfold table_entry.
  apply wp_bind. apply wp_get3 with (d := naff) (n := 36) (m := 4) (l := 2); auto; try lia.
  destruct (rg_E _ _ _ _ _ RG d Hd) as (We & _).
  destruct (au_spec W8 _ (N.of_nat k) eq_refl We) as (Ea & Ba & _). rewrite Ea. cbn [bind].
  change (2 ^ N.of_nat (wb W8))%N with 256%N in Ba.
  apply wp_bind. apply wp_get3 with (d := 0%N) (n := 32) (m := 4) (l := 256); auto; try lia.
  eapply wp_mono; [apply table_loop_wp with (QL := QL); auto|]. intros y H. exact H.
Qed.

Definition table_ok (g : wbglob) (QL : mat) (r : N) (T : list (list (list N))) (i d k : nat) : Prop :=
  entry_ok g QL i d k (N.lxor (at3 0%N T i d k) (if Nat.eqb d 3 then r else 0%N)).

Lemma gen_table_wp : forall g QL QLi r i T, glob_typed g -> dims3 32 4 256 (gS g) ->
  row_good (gP g) (gE g) (gEC g) (gQ g) i ->
  wfM W32 QL -> length QLi = 4 -> (forall j, j < 4 -> shapeM W32 (nth j QLi [])) ->
  (forall j ii, j < 4 -> ii < 32 -> word (nth j QLi []) ii 0 = byte (word QL ii 0) (N.of_nat j)) ->
  i < 32 -> dims3 32 4 256 T ->
  wp (gen_table LE g QLi r i T) (fun T' => dims3 32 4 256 T' /\
    (forall i', i' <> i -> nth i' T' [] = nth i' T []) /\
    forall d k, d < 4 -> k < 256 -> table_ok g QL r T' i d k).
Proof.
  intros g QL QLi r i T HG DS RG WQ LQ SQ HQ Hi DT. unfold gen_table.
  apply wp_for_up with (I := fun k T' => dims3 32 4 256 T' /\
    (forall i', i' <> i -> nth i' T' [] = nth i' T []) /\
    forall d k', d < 4 -> k' < k -> table_ok g QL r T' i d k').
  { lia. } { split; auto. split; auto. intros; lia. }
  2:{ intros T' (D & F & H). split; auto. }
  intros k T0 _ Hk (D0 & F0 & H0). apply wp_bind.
  apply wp_for_up with (I := fun d T' => dims3 32 4 256 T' /\
    (forall i', i' <> i -> nth i' T' [] = nth i' T []) /\
    (forall d' k', d' < 4 -> k' < k -> table_ok g QL r T' i d' k') /\
    (forall d', d' < d -> entry_ok g QL i d' k (at3 0%N T' i d' k))).
  { lia. } { split; auto. split; auto. split; auto. intros; lia. }
  { intros d T1 _ Hd (D1 & F1 & H1 & E1). apply wp_bind.
    eapply wp_mono; [apply table_entry_wp with (QL := QL); auto|]. intros y Hy.
    apply wp_set3 with (d := 0%N) (n := 32) (m := 4) (l := 256); auto.
    intros T2 D2 A2 F2. split; auto. split; [intros i' Hi'; rewrite F2 by auto; auto|]. split.
    - intros d' k' Hd' Hk'. unfold table_ok. rewrite A2.
      destruct (Nat.eqb_spec k' k); [lia|]. rewrite !andb_false_r. apply H1; auto.
    - intros d' Hd'. rewrite A2, !Nat.eqb_refl. cbn [andb]. rewrite andb_true_r.
      destruct (Nat.eqb_spec d' d) as [->|]; auto. apply E1. lia. }
  intros T1 (D1 & F1 & H1 & E1).
  apply wp_bind. apply wp_get3 with (d := 0%N) (n := 32) (m := 4) (l := 256); auto; try lia.
  apply wp_set3 with (d := 0%N) (n := 32) (m := 4) (l := 256); auto; try lia.
  intros T2 D2 A2 F2. split; auto. split; [intros i' Hi'; rewrite F2 by auto; auto|].
  intros d k' Hd Hk'. unfold table_ok. rewrite A2, Nat.eqb_refl. cbn [andb].
  destruct (Nat.eqb_spec d 3) as [->|Hd3]; cbn [andb].
  - destruct (Nat.eqb_spec k' k) as [->|].
    + rewrite N.lxor_assoc, N.lxor_nilpotent, N.lxor_0_r. apply E1. lia.
    + apply (H1 3 k'); lia.
  - destruct (Nat.eq_dec k' k) as [->|].
    + rewrite N.lxor_0_r. apply E1. lia.
    + specialize (H1 d k' Hd ltac:(lia)). unfold table_ok in H1.
      destruct (Nat.eqb_spec d 3); [lia|]. exact H1.
Qed.

(** ** One round of table generation *)

Definition arr1 (w : width) (n : nat) (t : list aff) : Prop :=
  length t = n /\ forall i, i < n -> typedA w (nth i t naff).
Lemma wp_set_arr1 : forall w n t i x (Q : list aff -> Prop), arr1 w n t -> i < n -> typedA w x ->
  (forall t', arr1 w n t' -> (forall i', nth i' t' naff = if Nat.eqb i' i then x else nth i' t naff) -> Q t') ->
  wp (aset t i x) Q.
Proof.
  intros w n t i x Q [L H] Hi Hx HQ. apply wp_aset; [lia|]. apply HQ.
  - split; [rewrite length_upd; auto|]. intros i' Hi'. rewrite nth_upd by lia.
    destruct (Nat.eqb_spec i' i); auto.
  - intros i'. apply nth_upd. lia.
Qed.

Definition ctx_typed (c : wbctx) : Prop :=
  arr2 W32 32 3 (cM c) /\ arr1 W32 32 (cC c) /\ arr1 W32 32 (cD c) /\
  arr1 W32 4 (cSE c) /\ arr1 W32 4 (cFE c) /\ dims3 32 4 256 (cT c).

Definition p0 (g : wbglob) (i : nat) : aff := at2 naff (gP g) i 0.
Definition p1 (g : wbglob) (i : nat) : aff := at2 naff (gP g) i 1.
Definition q0 (g : wbglob) (i : nat) : aff := at2 naff (gQ g) i 0.
Definition q1 (g : wbglob) (i : nat) : aff := at2 naff (gQ g) i 1.
Definition vec0 (f : aff) : N := nth 0 (avec f) 0%N.

Record round_ok (g : wbglob) (c : wbctx) (i : nat) : Prop :=
  { ro_M : forall j, j < 3 -> wfA W32 (at2 naff (cM c) i j) /\
      forall x, au W32 (at2 naff (cM c) i j) x = au W32 (at2 naff (gEC g) i 1) (au W32 (p1 g (i + 1 + j)) x);
    ro_C : wfA W32 (nth i (cC c) naff) /\
      forall x, au W32 (nth i (cC c) naff) x = au W32 (p0 g (i + 4)) (au W32 (p1 g i) x);
    ro_D : wfA W32 (nth i (cD c) naff) /\
      forall x, au W32 (nth i (cD c) naff) x =
        N.lxor (au W32 (p0 g (i + 4)) (au W32 (q1 g i) x)) (vec0 (p0 g (i + 4)));
    ro_T : exists QL, wfM W32 QL /\
      feq 32 (mbit W32 QL) (fmul 32 (mbit W32 (amat (q0 g i))) (mbit W32 csl_mat)) /\
      forall d k, d < 4 -> k < 256 -> table_ok g QL (vec0 (q0 g i)) (cT c) i d k }.

Definition glob_good (g : wbglob) : Prop :=
  glob_typed g /\ dims3 32 4 256 (gS g) /\ forall r, r < 36 -> row_good (gP g) (gE g) (gEC g) (gQ g) r.

Lemma wp_avec0 : forall f (Q : N -> Prop), wfV W32 (avec f) -> Q (vec0 f) -> wp (aget (avec f) 0) Q.
Proof. intros f Q [L _] HQ. apply wp_aget with (d := 0%N); auto. rewrite L. cbn. lia. Qed.

Lemma affinemix_au_wp : forall f g mix, wfA W32 f -> wfA W32 g -> typedA W32 mix ->
  wp (affinemixM32_old LE f g mix) (fun h => wfA W32 h /\ forall x, au W32 h x = au W32 f (au W32 g x)).
Proof.
  intros f g mix Hf Hg Hm. eapply wp_mono; [apply affinemix_old_wp; auto using typedA_shape|].
  intros h [Wh H]. split; auto. intros x. apply au_mix; auto. reflexivity.
Qed.

(** adding a constant to the vector *)
Lemma au_shift : forall m v y, wfA W32 (mkaff m [v]) -> (y < 2 ^ 32)%N ->
  wfA W32 (mkaff m [N.lxor v y]) /\
  forall x, au W32 (mkaff m [N.lxor v y]) x = N.lxor (au W32 (mkaff m [v]) x) y.
Proof.
  intros m v y [Wm Wv] Hy. assert (Bv : (v < 2 ^ 32)%N) by (destruct Wv as [_ B]; inversion B; auto).
  assert (W' : wfA W32 (mkaff m [N.lxor v y])).
  { split; auto. split; [reflexivity|]. constructor; [|constructor]. apply lxor_bound; auto. }
  split; auto. intros x.
  destruct (au_spec W32 _ x eq_refl W') as (_ & B1 & E1).
  destruct (au_spec W32 (mkaff m [v]) x eq_refl (conj Wm Wv)) as (_ & B2 & E2).
  apply (bv_ext W32); auto; [reflexivity|apply lxor_bound; auto|].
  intros i Hi. rewrite E1 by auto. rewrite bv_lxor_i by (auto; reflexivity). rewrite E2 by auto.
  unfold aapp, vadd. cbn [amat avec]. change (vbit W32 [N.lxor v y] i) with (bv W32 (N.lxor v y) i).
  rewrite bv_lxor_i by (auto; reflexivity). unfold bv. rewrite xorb_assoc. reflexivity.
Qed.

Lemma combine_round_wp : forall g c i, glob_good g -> ctx_typed c -> i < 32 ->
  (forall r, r < i -> round_ok g c r) ->
  wp (combine_round LE g csl_mat i c) (fun c' => ctx_typed c' /\ forall r, r < S i -> round_ok g c' r).
Proof.
  intros g c i (HG & DS & RG) (HM & HC & HD & HSE & HFE & HT) Hi HR. unfold combine_round.
  pose proof HG as ((DP & _) & _ & (DEC & _) & (DQ & _)).
  pose proof (rg_EC _ _ _ _ _ (RG i ltac:(lia))) as WEC.
  pose proof (rg_Q _ _ _ _ _ (RG i ltac:(lia))) as (WQ0 & WQ1 & _).
  assert (WP : forall k, k < 36 -> wfA W32 (p0 g k) /\ wfA W32 (p1 g k)).
  { intros k Hk. destruct (rg_P _ _ _ _ _ (RG k Hk)) as (A & B & _). auto. }
  apply wp_bind. apply wp_get2 with (d := naff) (n := 36) (m := 2); auto; try lia.
  apply wp_bind.
  apply wp_for_up with (I := fun j M => arr2 W32 32 3 M /\
    (forall r j', r <> i -> at2 naff M r j' = at2 naff (cM c) r j') /\
    forall j', j' < j -> wfA W32 (at2 naff M i j') /\
      forall x, au W32 (at2 naff M i j') x = au W32 (at2 naff (gEC g) i 1) (au W32 (p1 g (i + 1 + j')) x)).
  { lia. } { split; auto. split; auto. intros; lia. }
  { intros j M _ Hj (HM1 & FM & AM). apply wp_bind.
    apply wp_get2 with (d := naff) (n := 36) (m := 2); auto; try lia.
    apply wp_bind. apply wp_get2 with (d := naff) (n := 32) (m := 3); auto; try lia; [apply HM1|].
    apply wp_bind. eapply wp_mono.
    { apply affinemix_au_wp; auto; [apply WP; lia|apply HM1; auto]. }
    intros m' [Wm' Am']. apply wp_set_arr2 with (w := W32) (n := 32) (m := 3); auto; try (apply wfA_typed; auto).
    intros M2 HM2 EM2. split; auto. split.
    - intros r j' Hr. rewrite EM2. destruct (Nat.eqb_spec r i); [lia|]. apply FM. auto.
    - intros j' Hj'. rewrite EM2, Nat.eqb_refl. cbn [andb].
      destruct (Nat.eqb_spec j' j) as [->|]; [split; auto|apply AM; lia]. }
  intros M' (HM' & FM & AM).
  apply wp_bind. apply wp_get2 with (d := naff) (n := 36) (m := 2); auto; try lia. fold (q0 g i).
  apply wp_bind. eapply wp_mono.
  { apply MatMulMat_old_wp; [apply WQ0|apply csl_wf|apply (shape_fresh_m W32)]. }
  intros QL [WQL FQL].
  apply wp_bind. eapply wp_mono; [apply split_QL_wp; auto|]. intros QLi (L1 & L2 & L3).
  apply wp_bind. apply wp_avec0; [apply WQ0|].
  apply wp_bind. eapply wp_mono; [apply gen_table_wp with (QL := QL); auto; apply RG; lia|].
  intros T' (DT' & FT & AT).
  apply wp_bind. apply wp_get2 with (d := naff) (n := 36) (m := 2); auto; try lia. fold (p0 g (i + 4)).
  apply wp_bind. apply wp_get2 with (d := naff) (n := 36) (m := 2); auto; try lia. fold (p1 g i).
  apply wp_bind. apply wp_aget with (d := naff); [destruct HC as [-> _]; auto|].
  apply wp_bind. eapply wp_mono.
  { apply affinemix_au_wp; [apply WP; lia|apply WP; lia|apply HC; auto]. }
  intros c1 [Wc1 Ac1].
  apply wp_bind. apply wp_set_arr1 with (w := W32) (n := 32); auto; try (apply wfA_typed; auto). intros C' HC' EC'.
  apply wp_bind. apply wp_get2 with (d := naff) (n := 36) (m := 2); auto; try lia. fold (q1 g i).
  apply wp_bind. apply wp_aget with (d := naff); [destruct HD as [-> _]; auto|].
  apply wp_bind. eapply wp_mono.
  { apply affinemix_au_wp; [apply WP; lia|exact WQ1|apply HD; auto]. }
  intros d1 [Wd1 Ad1].
  apply wp_bind. apply wp_avec0; [apply Wd1|]. apply wp_bind. apply wp_avec0; [apply WP; lia|].
  apply wp_bind.
  destruct d1 as [dm dv]. cbn [avec amat] in *. destruct Wd1 as [Wdm Wdv]. cbn [avec amat] in *.
  pose proof (proj1 Wdv) as Ldv. destruct dv as [|v [|v' dv]]; try discriminate Ldv.
  assert (Bp : (vec0 (p0 g (i + 4)) < 2 ^ 32)%N).
  { destruct (WP (i + 4) ltac:(lia)) as [[_ Wv] _]. apply vec_of_iff in Wv. apply (proj2 Wv 0). }
  destruct (au_shift dm v (vec0 (p0 g (i + 4))) (conj Wdm Wdv) Bp) as [WD AD].
  apply wp_aset; [cbn; lia|]. cbn [upd]. change (vec0 (mkaff dm [v])) with v.
  apply wp_bind. apply wp_set_arr1 with (w := W32) (n := 32); auto; try (apply wfA_typed; auto). intros D' HD' ED'.
  apply wp_ok. split. { repeat (split; auto). }
  intros r Hr. destruct (Nat.eq_dec r i) as [->|Hne].
  - split; cbn [cM cC cD cT].
    + exact AM.
    + rewrite EC', Nat.eqb_refl. split; auto.
    + rewrite ED', Nat.eqb_refl. split; auto. intros x. rewrite AD, Ad1. reflexivity.
    + exists QL. split; auto.
  - assert (Hlt : r < i) by lia. destruct (HR r Hlt) as [R1 R2 R3 (QL' & R4 & R5 & R6)].
    split; cbn [cM cC cD cT].
    + intros j Hj. rewrite FM by auto. apply R1. auto.
    + rewrite EC'. destruct (Nat.eqb_spec r i); [lia|]. exact R2.
    + rewrite ED'. destruct (Nat.eqb_spec r i); [lia|]. exact R3.
    + exists QL'. split; auto. split; auto. intros d k Hd Hk.
      unfold table_ok, at3. rewrite FT by auto. apply R6; auto.
Qed.

Record ctx_good (g : wbglob) (c : wbctx) : Prop :=
  { cg_T : ctx_typed c;
    cg_R : forall r, r < 32 -> round_ok g c r;
    cg_S : forall i, i < 4 -> nth i (cSE c) naff = p0 g i;
    cg_F : forall i, i < 4 -> nth i (cFE c) naff = p1 g (32 + i) }.

Lemma combine_wp : forall g c, glob_good g -> ctx_typed c ->
  wp (sm4_wb_combine_tables LE g csl_mat c) (ctx_good g).
Proof.
  intros g c HG HC. unfold sm4_wb_combine_tables. apply wp_bind.
  apply wp_for_up with (I := fun i c => ctx_typed c /\ forall r, r < i -> round_ok g c r).
  { lia. } { split; auto. intros; lia. }
  { intros i c' _ Hi [T R]. apply combine_round_wp; auto. }
  clear c HC. intros c [HC HR].
  pose proof HG as (((DP & TP) & _) & _ & RG).
  apply wp_for_up with (I := fun i c => ctx_typed c /\ (forall r, r < 32 -> round_ok g c r) /\
    (forall j, j < i -> nth j (cSE c) naff = p0 g j) /\ (forall j, j < i -> nth j (cFE c) naff = p1 g (32 + j))).
  { lia. } { split; auto. split; auto. split; intros; lia. }
  2:{ intros c' (A & B & C & D). split; auto. }
  clear c HC HR. intros i c _ Hi ((HM & HC & HD & HSE & HFE & HT) & HR & HS & HF).
  apply wp_bind. apply wp_get2 with (d := naff) (n := 36) (m := 2); auto; try lia.
  apply wp_bind. apply wp_set_arr1 with (w := W32) (n := 4); auto; try (apply TP; lia). intros SE' HSE' ESE.
  apply wp_bind. apply wp_get2 with (d := naff) (n := 36) (m := 2); auto; try lia.
  apply wp_bind. apply wp_set_arr1 with (w := W32) (n := 4); auto; try (apply TP; lia). intros FE' HFE' EFE.
  apply wp_ok. cbn [cM cC cD cT cSE cFE]. split; [repeat (split; auto); first [apply HM|apply HC|apply HD|apply HSE'|apply HFE'|apply HT]|].
  split.
  - intros r Hr. destruct (HR r Hr) as [R1 R2 R3 R4]. split; auto.
  - split; intros j Hj; cbn [cSE cFE].
    + rewrite ESE. destruct (Nat.eqb_spec j i) as [->|]; [reflexivity|apply HS; lia].
    + rewrite EFE. destruct (Nat.eqb_spec j i) as [->|]; [reflexivity|apply HF; lia].
Qed.

(** ** Encryption *)

Lemma parts_sum : forall QL s0 s1 s2 s3 i, (s0 < 256)%N -> (s1 < 256)%N -> (s2 < 256)%N -> (s3 < 256)%N -> i < 32 ->
  xorb (xorb (xorb (part QL 0 s0 i) (part QL 1 s1 i)) (part QL 2 s2 i)) (part QL 3 s3 i)
  = fapp 32 (mbit W32 QL) (bv W32 (word_of s0 s1 s2 s3)) i.
Proof.
  intros QL s0 s1 s2 s3 i H0 H1 H2 H3 Hi. unfold fapp, part.
  change 32 with (8 + (8 + (8 + 8))). rewrite !xsum_add.
  rewrite !xorb_assoc. f_equal; [|f_equal; [|f_equal]]; apply xsum_ext; intros k Hk.
  - f_equal. change (bv W8 s0 k) with (bv W8 (nth 0 [s0; s1; s2; s3] 0%N) k).
    rewrite <- (bv_word s0 s1 s2 s3 0 k) by (auto; lia). reflexivity.
  - f_equal. change (bv W8 s1 k) with (bv W8 (nth 1 [s0; s1; s2; s3] 0%N) k).
    rewrite <- (bv_word s0 s1 s2 s3 1 k) by (auto; lia). reflexivity.
  - rewrite !Nat.add_assoc. f_equal. change (bv W8 s2 k) with (bv W8 (nth 2 [s0; s1; s2; s3] 0%N) k).
    rewrite <- (bv_word s0 s1 s2 s3 2 k) by (auto; lia). reflexivity.
  - rewrite !Nat.add_assoc. f_equal. change (bv W8 s3 k) with (bv W8 (nth 3 [s0; s1; s2; s3] 0%N) k).
    rewrite <- (bv_word s0 s1 s2 s3 3 k) by (auto; lia). reflexivity.
Qed.

Lemma avec_vec0 : forall f, wfV W32 (avec f) -> veq 32 (vbit W32 (avec f)) (bv W32 (vec0 f)).
Proof.
  intros f [L _] i Hi. unfold bv, vec0. destruct (avec f) as [|v [|v' l]]; try discriminate L. reflexivity.
Qed.

Section Enc.
Variables (g : wbglob) (c : wbctx) (rk : nat -> N).
Hypothesis HG : glob_good g.
Hypothesis HC : ctx_good g c.
Hypothesis HS : forall i d j, i < 32 -> d < 4 -> j < 256 -> sbox_ok rk (gS g) i d j.

Let e0 (i d : nat) := at3 naff (gE g) i d 0.
Let e1 (i d : nat) := at3 naff (gE g) i d 1.

(** one table look-up *)
Lemma lookup : forall i QL Y d, i < 32 -> d < 4 ->
  (forall d k, d < 4 -> k < 256 -> table_ok g QL (vec0 (q0 g i)) (cT c) i d k) ->
  let t := at3 0%N (cT c) i d (N.to_nat (au W8 (e1 i d) (byte Y (N.of_nat (3 - d))))) in
  let t' := N.lxor t (if Nat.eqb d 3 then vec0 (q0 g i) else 0%N) in
  (t' < 2 ^ 32)%N /\ veq 32 (bv W32 t') (part QL d (sbox (byte (N.lxor Y (rk i)) (N.of_nat (3 - d))))).
Proof.
  intros i QL Y d Hi Hd HT t t'. destruct HG as (_ & _ & RG).
  destruct (rg_E _ _ _ _ _ (RG i ltac:(lia)) d Hd) as (W0 & W1 & _ & I10).
  fold (e0 i d) in *. fold (e1 i d) in *.
  destruct (au_spec W8 (e1 i d) (byte Y (N.of_nat (3 - d))) eq_refl W1) as (_ & B & _).
  change (2 ^ N.of_nat (wb W8))%N with 256%N in *.
  destruct (HT d (N.to_nat (au W8 (e1 i d) (byte Y (N.of_nat (3 - d))))) Hd ltac:(lia)) as [B' E'].
  fold t in B', E'. fold t' in B', E'. split; auto.
  rewrite N2Nat.id in E'. fold (e0 i d) in E'. rewrite I10 in E' by apply byte_bound.
  pose proof (byte_bound Y (N.of_nat (3 - d))) as BY.
  rewrite (HS i d (N.to_nat (byte Y (N.of_nat (3 - d)))) Hi Hd ltac:(lia)) in E'.
  rewrite N2Nat.id, <- byte_lxor in E'. exact E'.
Qed.

Lemma SK32_wp : forall i Y, i < 32 ->
  SK32 (cT c) i (au W32 (at2 naff (gEC g) i 1) Y) = Ok (au W32 (q0 g i) (linL (tau (N.lxor Y (rk i))))).
Proof.
  intros i Y Hi. pose proof HG as (_ & _ & RG). pose proof (RG i ltac:(lia)) as RGi.
  pose proof (rg_ECa _ _ _ _ _ RGi Y) as EA. rewrite EA. fold (e1 i 0) (e1 i 1) (e1 i 2) (e1 i 3).
  assert (B8 : forall d y, d < 4 -> (au W8 (e1 i d) y < 256)%N).
  { intros d y Hd. destruct (rg_E _ _ _ _ _ RGi d Hd) as (_ & W1 & _).
    destruct (au_spec W8 (e1 i d) y eq_refl W1) as (_ & B & _). exact B. }
  destruct (byte_word (au W8 (e1 i 0) (byte Y 3)) (au W8 (e1 i 1) (byte Y 2)) (au W8 (e1 i 2) (byte Y 1))
    (au W8 (e1 i 3) (byte Y 0)) (B8 0 _ ltac:(lia)) (B8 1 _ ltac:(lia)) (B8 2 _ ltac:(lia)) (B8 3 _ ltac:(lia)))
    as (E3 & E2 & E1 & E0).
  set (a := word_of _ _ _ _) in *. unfold SK32.
  change 24%N with (8 * 3)%N. change 16%N with (8 * 2)%N. change (N.shiftr a 8) with (N.shiftr a (8 * 1)).
  replace (N.land a 255) with (N.land (N.shiftr a (8 * 0)) 255) by reflexivity.
  rewrite !land_byte, E3, E2, E1, E0.
  destruct (cg_T _ _ HC) as (_ & _ & _ & _ & _ & DT).
  destruct (cg_R _ _ HC i Hi) as [_ _ _ (QL & WQL & FQL & AT)].
  pose proof (lookup i QL Y 0 Hi ltac:(lia) AT) as [_ P0].
  pose proof (lookup i QL Y 1 Hi ltac:(lia) AT) as [_ P1].
  pose proof (lookup i QL Y 2 Hi ltac:(lia) AT) as [_ P2].
  pose proof (lookup i QL Y 3 Hi ltac:(lia) AT) as [_ P3].
  pose proof (lookup i QL Y 0 Hi ltac:(lia) AT) as [Q0 _].
  pose proof (lookup i QL Y 1 Hi ltac:(lia) AT) as [Q1 _].
  pose proof (lookup i QL Y 2 Hi ltac:(lia) AT) as [Q2 _].
  pose proof (lookup i QL Y 3 Hi ltac:(lia) AT) as [Q3 _].
  cbn [Nat.sub Nat.eqb N.of_nat] in P0, P1, P2, P3, Q0, Q1, Q2, Q3.
  change (N.pos (Pos.of_succ_nat 2)) with 3%N in *. change (N.pos (Pos.of_succ_nat 1)) with 2%N in *.
  change (N.pos (Pos.of_succ_nat 0)) with 1%N in *.
  rewrite N.lxor_0_r in P0, P1, P2, Q0, Q1, Q2.
  set (t0 := at3 0%N (cT c) i 0 _) in *. set (t1 := at3 0%N (cT c) i 1 _) in *.
  set (t2 := at3 0%N (cT c) i 2 _) in *. set (t3 := at3 0%N (cT c) i 3 _) in *.
  pose proof (rg_Q _ _ _ _ _ RGi) as (WQ0 & _). fold (q0 g i) in WQ0.
  assert (Br : (vec0 (q0 g i) < 2 ^ 32)%N).
  { destruct WQ0 as [_ Wv]. apply vec_of_iff in Wv. apply (proj2 Wv 0). }
  assert (Q3' : (t3 < 2 ^ 32)%N).
  { replace t3 with (N.lxor (N.lxor t3 (vec0 (q0 g i))) (vec0 (q0 g i))).
    - apply lxor_bound; auto.
    - rewrite N.lxor_assoc, N.lxor_nilpotent, N.lxor_0_r. reflexivity. }
  apply wp_eq.
  apply wp_bind. apply wp_get3 with (d := 0%N) (n := 32) (m := 4) (l := 256); auto; try (pose proof (B8 0 (byte Y 3)); lia).
  apply wp_bind. apply wp_get3 with (d := 0%N) (n := 32) (m := 4) (l := 256); auto; try (pose proof (B8 1 (byte Y 2)); lia).
  apply wp_bind. apply wp_get3 with (d := 0%N) (n := 32) (m := 4) (l := 256); auto; try (pose proof (B8 2 (byte Y 1)); lia).
  apply wp_bind. apply wp_get3 with (d := 0%N) (n := 32) (m := 4) (l := 256); auto; try (pose proof (B8 3 (byte Y 0)); lia).
  fold t0 t1 t2 t3. apply wp_ok.
  set (z := tau (N.lxor Y (rk i))).
  destruct (au_spec W32 (q0 g i) (linL z) eq_refl WQ0) as (_ & Bz & Ez).
  apply (bv_ext W32); auto; [reflexivity|repeat apply lxor_bound; auto|].
  intros j Hj. change (dim W32) with 32 in *. rewrite Ez by auto. unfold aapp, vadd.
  change (dim W32) with 32. rewrite avec_vec0 by (auto; apply WQ0).
  assert (F : fapp 32 (mbit W32 (amat (q0 g i))) (bv W32 (linL z)) j = fapp 32 (mbit W32 QL) (bv W32 z) j).
  { symmetry. assert (V : veq 32 (fapp 32 (mbit W32 QL) (bv W32 z))
      (fapp 32 (mbit W32 (amat (q0 g i))) (bv W32 (linL z)))).
    { rewrite FQL, fmul_fapp, fapp_csl by apply tau_bound. reflexivity. }
    apply V. auto. }
  rewrite F. unfold z, tau at 1.
  rewrite <- parts_sum by (auto; apply sbox_bound, byte_bound).
  rewrite <- P0, <- P1, <- P2, <- P3 by auto. rewrite !bv_lxor_i by (auto; reflexivity).
  destruct (bv W32 t0 j), (bv W32 t1 j), (bv W32 t2 j), (bv W32 t3 j), (bv W32 (vec0 (q0 g i)) j); reflexivity.
Qed.

Lemma au_ok : forall f x, wfA W32 f -> affineU1 LE W32 f x = Ok (au W32 f x).
Proof. intros f x Hf. apply au_spec; auto. reflexivity. Qed.
Lemma au_bnd : forall f x, wfA W32 f -> (au W32 f x < 2 ^ 32)%N.
Proof. intros f x Hf. destruct (au_spec W32 f x eq_refl Hf) as (_ & B & _). exact B. Qed.

Lemma lxor3 : forall a b c, N.lxor a (N.lxor b c) = N.lxor (N.lxor a b) c.
Proof. intros. symmetry. apply N.lxor_assoc. Qed.

Lemma round_step : forall i X0 X1 X2 X3, i < 32 ->
  (X0 < 2 ^ 32)%N -> (X1 < 2 ^ 32)%N -> (X2 < 2 ^ 32)%N -> (X3 < 2 ^ 32)%N ->
  sm4round LE c i (au W32 (p0 g i) X0) (au W32 (p0 g (i + 1)) X1) (au W32 (p0 g (i + 2)) X2) (au W32 (p0 g (i + 3)) X3)
  = Ok (au W32 (p0 g (i + 4)) (N.lxor X0 (linL (tau (xor4 X1 X2 X3 (rk i)))))).
Proof.
  intros i X0 X1 X2 X3 Hi B0 B1 B2 B3. pose proof HG as (_ & _ & RG).
  destruct (cg_T _ _ HC) as ((DM & _) & (LC & _) & (LD & _) & _).
  destruct (cg_R _ _ HC i Hi) as [RM (WC & AC) (WD & AD) _].
  assert (PI : forall k X, k < 36 -> (X < 2 ^ 32)%N -> au W32 (p1 g k) (au W32 (p0 g k) X) = X).
  { intros k X Hk HX. destruct (rg_P _ _ _ _ _ (RG k Hk)) as (_ & _ & I & _). apply I. exact HX. }
  assert (WP : wfA W32 (p0 g (i + 4))).
  { destruct (rg_P _ _ _ _ _ (RG (i + 4) ltac:(lia))) as (W & _). exact W. }
  destruct (RM 0 ltac:(lia)) as [W0 A0]. destruct (RM 1 ltac:(lia)) as [W1 A1]. destruct (RM 2 ltac:(lia)) as [W2 A2].
  apply wp_eq. unfold sm4round.
  apply wp_bind. apply wp_get2 with (d := naff) (n := 32) (m := 3); auto; try lia. rewrite au_ok by auto. cbn [bind].
  apply wp_bind. apply wp_get2 with (d := naff) (n := 32) (m := 3); auto; try lia. rewrite au_ok by auto. cbn [bind].
  apply wp_bind. apply wp_get2 with (d := naff) (n := 32) (m := 3); auto; try lia. rewrite au_ok by auto. cbn [bind].
  rewrite A0, A1, A2. rewrite Nat.add_0_r.
  replace (i + 1 + 1) with (i + 2) by lia. replace (i + 1 + 2) with (i + 3) by lia.
  rewrite !PI by (auto; lia).
  rewrite <- au_xor3; [|reflexivity|apply (rg_EC _ _ _ _ _ (RG i ltac:(lia)))].
  rewrite SK32_wp by auto. cbn [bind].
  apply wp_bind. apply wp_aget with (d := naff); [lia|]. rewrite au_ok by auto. cbn [bind].
  apply wp_bind. apply wp_aget with (d := naff); [lia|]. rewrite au_ok by auto. cbn [bind].
  apply wp_ok. rewrite AC, AD, PI by (auto; lia).
  destruct (rg_Q _ _ _ _ _ (RG i ltac:(lia))) as (_ & _ & IQ & _).
  fold (q0 g i) in IQ. fold (q1 g i) in IQ.
  set (z := linL (tau (N.lxor (N.lxor (N.lxor X1 X2) X3) (rk i)))).
  assert (Bz : (z < 2 ^ 32)%N) by (apply linL_bound, tau_bound).
  rewrite IQ by exact Bz.
  assert (Ez : z = linL (tau (xor4 X1 X2 X3 (rk i)))).
  { unfold z, xor4. rewrite !N.lxor_assoc. reflexivity. }
  rewrite <- Ez. clearbody z.
  (* p(X0) + p(z) + vec = p(X0 + z) *)
  destruct (au_spec W32 (p0 g (i + 4)) X0 eq_refl WP) as (_ & Ba & Ea).
  destruct (au_spec W32 (p0 g (i + 4)) z eq_refl WP) as (_ & Bb & Eb).
  destruct (au_spec W32 (p0 g (i + 4)) (N.lxor X0 z) eq_refl WP) as (_ & Bc & Ec).
  assert (Bv : (vec0 (p0 g (i + 4)) < 2 ^ 32)%N).
  { destruct WP as [_ Wv]. apply vec_of_iff in Wv. apply (proj2 Wv 0). }
  apply (bv_ext W32); auto; [reflexivity|repeat apply lxor_bound; auto|].
  intros j Hj. change (dim W32) with 32 in *. rewrite !bv_lxor_i by (auto; reflexivity).
  rewrite Ea, Eb, Ec by auto. unfold aapp, vadd. change (dim W32) with 32.
  rewrite avec_vec0 by (auto; apply WP).
  assert (V : veq 32 (fapp 32 (mbit W32 (amat (p0 g (i + 4)))) (bv W32 (N.lxor X0 z)))
    (vadd (fapp 32 (mbit W32 (amat (p0 g (i + 4)))) (bv W32 X0)) (fapp 32 (mbit W32 (amat (p0 g (i + 4)))) (bv W32 z)))).
  { rewrite <- fapp_vadd. apply fapp_proper; [reflexivity|]. apply (bv_lxor W32). reflexivity. }
  rewrite V by auto. unfold vadd.
  destruct (fapp 32 (mbit W32 (amat (p0 g (i + 4)))) (bv W32 X0) j),
    (fapp 32 (mbit W32 (amat (p0 g (i + 4)))) (bv W32 z) j), (bv W32 (vec0 (p0 g (i + 4))) j); reflexivity.
Qed.

Lemma enc_ok : forall IN OUT, bytes 16 IN -> length OUT = 16 ->
  sm4_wb_enc LE IN OUT c = Ok (sm4_block rk IN).
Proof.
  intros IN OUT [LI FI] LO. unfold sm4_wb_enc. pose proof HG as (_ & _ & RG).
  rewrite !GET32_ok by (auto; lia). cbn [bind].
  change (word_of (nth 0 IN 0%N) (nth (0 + 1) IN 0%N) (nth (0 + 2) IN 0%N) (nth (0 + 3) IN 0%N)) with (be_word IN 0).
  change (word_of (nth 4 IN 0%N) (nth (4 + 1) IN 0%N) (nth (4 + 2) IN 0%N) (nth (4 + 3) IN 0%N)) with (be_word IN 1).
  change (word_of (nth 8 IN 0%N) (nth (8 + 1) IN 0%N) (nth (8 + 2) IN 0%N) (nth (8 + 3) IN 0%N)) with (be_word IN 2).
  change (word_of (nth 12 IN 0%N) (nth (12 + 1) IN 0%N) (nth (12 + 2) IN 0%N) (nth (12 + 3) IN 0%N)) with (be_word IN 3).
  assert (WP : forall k, k < 36 -> wfA W32 (p0 g k) /\ wfA W32 (p1 g k) /\
    forall X, (X < 2 ^ 32)%N -> au W32 (p1 g k) (au W32 (p0 g k) X) = X).
  { intros k Hk. destruct (rg_P _ _ _ _ _ (RG k Hk)) as (A & B & C & _). split; auto. }
  destruct (cg_T _ _ HC) as (_ & _ & _ & (LS & _) & (LF & _) & _).
  set (X := Xs (enc_F rk) (quad_of IN)).
  pose proof (Xs_enc_bound rk IN FI) as BX. fold X in BX.
  apply wp_eq.
  do 4 (apply wp_bind; apply wp_aget with (d := naff); [lia|]; rewrite (cg_S _ _ HC) by lia;
    rewrite au_ok by (apply WP; lia); cbn [bind]).
  apply wp_bind.
  apply wp_for_up with (I := fun i (st : N * N * N * N) =>
    st = (au W32 (p0 g i) (X i), au W32 (p0 g (i + 1)) (X (i + 1)), au W32 (p0 g (i + 2)) (X (i + 2)),
          au W32 (p0 g (i + 3)) (X (i + 3)))).
  { lia. } { reflexivity. }
  { intros i [[[x0 x1] x2] x3] _ Hi E. injection E as -> -> -> ->.
    rewrite round_step by (auto; lia). cbn [bind]. apply wp_ok.
    replace (S i) with (i + 1) by lia. replace (i + 1 + 1) with (i + 2) by lia. replace (i + 1 + 2) with (i + 3) by lia.
    replace (i + 1 + 3) with (i + 4) by lia. f_equal. f_equal. unfold X. rewrite Xs_step. reflexivity. }
  intros [[[x0 x1] x2] x3] E. injection E as -> -> -> ->.
  do 4 (apply wp_bind; apply wp_aget with (d := naff); [lia|]; rewrite (cg_F _ _ HC) by lia;
    rewrite au_ok by (apply WP; lia); cbn [bind]).
  cbn [Nat.add]. rewrite !(fun k H => proj2 (proj2 (WP k H))) by (auto; lia).
  rewrite sm4_block_Xs. fold X. generalize (X 35) (X 34) (X 33) (X 32). clear - LO. intros y3 y2 y1 y0.
  change PUT32 with PUT_ULONG_BE.
  apply wp_bind. apply wp_PUT; [lia|]. intros o1 L1 N1.
  apply wp_bind. apply wp_PUT; [lia|]. intros o2 L2 N2.
  apply wp_bind. apply wp_PUT; [lia|]. intros o3 L3 N3.
  apply wp_PUT; [lia|]. intros o4 L4 N4.
  apply list_ext with (d := 0%N); [rewrite L4, L3, L2, L1, LO; reflexivity|].
  intros k Hk. rewrite N4, N3, N2, N1. rewrite L4, L3, L2, L1, LO in Hk. clear - Hk.
  do 16 (destruct k as [|k]; [reflexivity|]). exfalso. lia.
Qed.
End Enc.

(** ** The whole program *)
Theorem wb_correct : forall u key g c s, bytes 16 key -> glob_typed g -> dims3 32 4 256 (gS g) -> ctx_typed c ->
  exists g' c' s', sm4_wb_gen_tables LE u key g c s = Ok (g', c', s') /\
    glob_typed g' /\ dims3 32 4 256 (gS g') /\ ctx_typed c' /\
    forall IN OUT, bytes 16 IN -> length OUT = 16 -> sm4_wb_enc LE IN OUT c' = Ok (SM4_encrypt key IN).
Proof.
  intros u key g c s HK HG DS HC.
  cut (wp (sm4_wb_gen_tables LE u key g c s) (fun r => let '(g', c', s') := r in
    glob_typed g' /\ dims3 32 4 256 (gS g') /\ ctx_typed c' /\
    forall IN OUT, bytes 16 IN -> length OUT = 16 -> sm4_wb_enc LE IN OUT c' = Ok (SM4_encrypt key IN))).
  { intros W. apply wp_ok_inv in W. destruct W as ([[g' c'] s'] & E & H). exists g', c', s'. auto. }
  unfold sm4_wb_gen_tables, sm4_setkey_enc. apply wp_bind.
  eapply wp_mono; [apply sm4_setkey_wp; auto; reflexivity|]. intros sk Hsk.
  apply wp_bind. eapply wp_mono; [apply secret_sbox_wp with (rk := round_key key); auto|]. intros S' [DS' HS'].
  apply wp_bind. eapply wp_mono; [apply gen_affine_wp; exact HG|]. intros [g' s'] (HG' & ES & RG). cbn [gS] in ES.
  rewrite initMatrixL_ok. cbn [bind].
  assert (GG : glob_good g') by (split; auto; split; auto; rewrite ES; auto).
  apply wp_bind. eapply wp_mono; [apply combine_wp; auto|]. intros c' CG. apply wp_ok.
  split; [exact HG'|]. split; [rewrite ES; exact DS'|]. split; [apply (cg_T _ _ CG)|].
  intros IN OUT HI HO. unfold SM4_encrypt. apply (enc_ok g' c' (round_key key)); auto.
  intros i d j Hi Hd Hj. rewrite ES. apply HS'; auto.
Qed.
