(** xorU (parity) and HWU (Hamming weight). *)
From Coq Require Import Arith NArith List Bool Lia.
From Verif Require Import Base Tables Model Spec LinAlg Mem Cons.
Import ListNotations.


Lemma parity_lxor : forall n x y, parity n (N.lxor x y) = xorb (parity n x) (parity n y).
Proof.
  intros n x y. unfold parity. rewrite <- xsum_xorb. apply xsum_ext.
  intros k _. apply N.lxor_spec.
Qed.
Lemma parity_shift : forall a b x,
  parity (a + b) x = xorb (parity a x) (parity b (N.shiftr x (N.of_nat a))).
Proof.
  intros a b x. unfold parity. rewrite xsum_add. f_equal. apply xsum_ext.
  intros k _. rewrite N.shiftr_spec by lia. f_equal. lia.
Qed.
Lemma parity_mod : forall n x, parity n (x mod 2 ^ N.of_nat n) = parity n x.
Proof.
  intros n x. unfold parity. apply xsum_ext. intros k Hk.
  apply N.mod_pow2_bits_low. lia.
Qed.
Lemma parity_high : forall n k x, (x < 2 ^ N.of_nat n)%N -> parity (n + k) x = parity n x.
Proof.
  intros n k x H. rewrite parity_shift. unfold parity at 2. rewrite xsum_false.
  - apply xorb_false_r.
  - intros j Hj. rewrite N.shiftr_spec by lia. apply (testbit_high x (N.of_nat n)); auto. lia.
Qed.
Lemma get_sub_bound : forall e t s q x, (get_sub e t s q x < 2 ^ N.of_nat s)%N.
Proof. intros. apply N.mod_lt. apply N.pow_nonzero. lia. Qed.

(** the two halves of a word, in either byte order *)
Lemma parity_halves : forall e s x,
  parity s (N.lxor (get_sub e (s + s) s 0 x) (get_sub e (s + s) s 1 x)) = parity (s + s) x.
Proof.
  intros e s x. rewrite parity_lxor, parity_shift. unfold get_sub. rewrite !parity_mod.
  destruct e; unfold sub_shift.
  - rewrite Nat.mul_0_r, Nat.mul_1_r. reflexivity.
  - replace (s + s - s * (0 + 1)) with s by lia.
    replace (s + s - s * (1 + 1)) with 0 by lia.
    rewrite xorb_comm. reflexivity.
Qed.

Lemma tab_xor_check :
  forallb (fun x => N.eqb (nth x tab_xor 9%N) (b2n (parity 8 (N.of_nat x)))) (seq 0 256) = true.
Proof. vm_compute. reflexivity. Qed.
Lemma length_tab_xor : length tab_xor = 256. Proof. reflexivity. Qed.

Lemma xorU8_ok : forall x, (x < 2 ^ N.of_nat 8)%N -> xorU8 x = Ok (b2n (parity 8 x)).
Proof.
  intros x Hx. unfold xorU8.
  assert (H : N.to_nat x < 256) by (change (2 ^ N.of_nat 8)%N with 256%N in Hx; lia).
  rewrite (aget_ok _ _ _ 9%N) by (rewrite length_tab_xor; auto).
  pose proof tab_xor_check as HC. rewrite forallb_forall in HC.
  specialize (HC (N.to_nat x)). rewrite in_seq in HC. rewrite N.eqb_eq in HC.
  rewrite N2Nat.id in HC. cbv beta iota delta [bind]. rewrite HC by lia.
  destruct (parity 8 x); reflexivity.
Qed.
Lemma b2n_eqb : forall b, (if N.eqb (b2n b) 0 then 0 else 1)%N = b2n b.
Proof. intros []; reflexivity. Qed.
Lemma xorU16_ok : forall e x, (x < 2 ^ N.of_nat 16)%N -> xorU16 e x = Ok (b2n (parity 16 x)).
Proof.
  intros e x Hx. unfold xorU16. cbv zeta.
  rewrite xorU8_ok by (apply lxor_bound; apply get_sub_bound). cbv beta iota delta [bind].
  rewrite b2n_eqb. f_equal. f_equal. apply (parity_halves e 8).
Qed.
Lemma xorU32_ok : forall e x, (x < 2 ^ N.of_nat 32)%N -> xorU32 e x = Ok (b2n (parity 32 x)).
Proof.
  intros e x Hx. unfold xorU32. cbv zeta.
  rewrite xorU16_ok by (apply lxor_bound; apply get_sub_bound). cbv beta iota delta [bind].
  rewrite b2n_eqb. f_equal. f_equal. apply (parity_halves e 16).
Qed.
Lemma xorU64_ok : forall e x, (x < 2 ^ N.of_nat 64)%N -> xorU64 e x = Ok (b2n (parity 64 x)).
Proof.
  intros e x Hx. unfold xorU64. cbv zeta.
  rewrite xorU32_ok by (apply lxor_bound; apply get_sub_bound). cbv beta iota delta [bind].
  rewrite b2n_eqb. f_equal. f_equal. apply (parity_halves e 32).
Qed.

Lemma xorU_ok : forall e w l, typedV w l -> xorU e w l = Ok (b2n (vparity w l)).
Proof.
  intros e w l Hl. apply vec_of_iff in Hl. destruct Hl as [HL HB]. unfold shapeV in HL.
  assert (G : forall k, k < nw w -> aget l k = Ok (nth k l 0%N)).
  { intros k Hk. apply aget_ok. lia. }
  unfold vparity.
  pose proof (HB 0) as B0. pose proof (HB 1) as B1. pose proof (HB 2) as B2.
  pose proof (HB 3) as B3. clear HB.
  destruct w; unfold xorU, xorU128, xorU256; cbn [nw cb] in *;
    rewrite !G by lia; cbv beta iota delta [bind xsum];
    revert B0 B1 B2 B3;
    generalize (nth 0 l 0%N) (nth 1 l 0%N) (nth 2 l 0%N) (nth 3 l 0%N);
    intros x0 x1 x2 x3 B0 B1 B2 B3.
  - rewrite xorU8_ok by exact B0. rewrite xorb_false_l. reflexivity.
  - rewrite xorU8_ok by exact B0. rewrite xorb_false_l. reflexivity.
  - rewrite xorU16_ok by exact B0. rewrite xorb_false_l. reflexivity.
  - rewrite xorU32_ok by exact B0. rewrite xorb_false_l. reflexivity.
  - rewrite xorU64_ok by exact B0. rewrite xorb_false_l. reflexivity.
  - rewrite xorU64_ok by (apply lxor_bound; assumption).
    rewrite b2n_eqb, parity_lxor, xorb_false_l. reflexivity.
  - rewrite xorU64_ok by (repeat apply lxor_bound; assumption).
    rewrite b2n_eqb, !parity_lxor, xorb_false_l. reflexivity.
Qed.

(** ... and as a sum over the columns *)
Lemma xsum_blocks : forall a b f, xsum (a * b) f = xsum b (fun k => xsum a (fun c => f (a * k + c))).
Proof.
  intros a b f. induction b as [|b IH].
  - rewrite Nat.mul_0_r. reflexivity.
  - rewrite Nat.mul_succ_r, xsum_add, IH. reflexivity.
Qed.
Lemma vparity_bits : forall w l, wfV w l -> vparity w l = xsum (dim w) (vbit w l).
Proof.
  intros w l Hl. apply vec_of_iff in Hl. destruct Hl as [HL HB].
  unfold vparity. rewrite dim_eq, xsum_blocks. apply xsum_ext. intros k Hk.
  transitivity (parity (wb w) (nth k l 0%N)).
  - destruct w; try reflexivity. apply (parity_high 4 4). apply HB.
  - unfold parity. rewrite xsum_rev. apply xsum_ext. intros c Hc.
    unfold vbit. rewrite div_block, mod_block by auto. reflexivity.
Qed.

(** ** Hamming weight *)

Lemma weight_shift : forall a b x,
  (weight (a + b) x = weight a x + weight b (N.shiftr x (N.of_nat a)))%N.
Proof.
  intros a b x. induction b as [|b IH].
  - rewrite Nat.add_0_r. simpl. lia.
  - rewrite Nat.add_succ_r. simpl. rewrite IH. rewrite N.shiftr_spec by lia.
    replace (N.of_nat b + N.of_nat a)%N with (N.of_nat (a + b)) by lia. lia.
Qed.
Lemma weight_ext : forall n x y,
  (forall k, k < n -> N.testbit x (N.of_nat k) = N.testbit y (N.of_nat k)) -> weight n x = weight n y.
Proof.
  induction n as [|n IH]; intros x y H; simpl; auto.
  rewrite (IH x y), (H n) by (try lia; intros; apply H; lia). reflexivity.
Qed.
Lemma weight_mod : forall n x, weight n (x mod 2 ^ N.of_nat n) = weight n x.
Proof. intros n x. apply weight_ext. intros k Hk. apply N.mod_pow2_bits_low. lia. Qed.
Lemma weight_halves : forall e s x,
  (weight s (get_sub e (s + s) s 0 x) + weight s (get_sub e (s + s) s 1 x))%N = weight (s + s) x.
Proof.
  intros e s x. rewrite weight_shift. unfold get_sub. rewrite !weight_mod.
  destruct e; unfold sub_shift.
  - rewrite Nat.mul_0_r, Nat.mul_1_r. reflexivity.
  - replace (s + s - s * (0 + 1)) with s by lia.
    replace (s + s - s * (1 + 1)) with 0 by lia.
    rewrite N.add_comm. reflexivity.
Qed.

Lemma tab_HW_check :
  forallb (fun x => N.eqb (nth x tab_HW 99%N) (weight 8 (N.of_nat x))) (seq 0 256) = true.
Proof. vm_compute. reflexivity. Qed.
Lemma length_tab_HW : length tab_HW = 256. Proof. reflexivity. Qed.

Lemma HWU8_ok : forall x, (x < 2 ^ N.of_nat 8)%N -> HWU8 x = Ok (weight 8 x).
Proof.
  intros x Hx. unfold HWU8.
  assert (H : N.to_nat x < 256) by (change (2 ^ N.of_nat 8)%N with 256%N in Hx; lia).
  rewrite (aget_ok _ _ _ 99%N) by (rewrite length_tab_HW; auto).
  pose proof tab_HW_check as HC. rewrite forallb_forall in HC.
  specialize (HC (N.to_nat x)). rewrite in_seq in HC. rewrite N.eqb_eq in HC.
  rewrite N2Nat.id in HC. rewrite HC by lia. reflexivity.
Qed.
Lemma HWU16_ok : forall e x, HWU16 e x = Ok (weight 16 x).
Proof.
  intros e x. unfold HWU16. rewrite !HWU8_ok by apply get_sub_bound.
  cbv beta iota delta [bind]. f_equal. apply (weight_halves e 8).
Qed.
Lemma HWU32_ok : forall e x, HWU32 e x = Ok (weight 32 x).
Proof.
  intros e x. unfold HWU32. rewrite !HWU16_ok.
  cbv beta iota delta [bind]. f_equal. apply (weight_halves e 16).
Qed.
Lemma HWU64_ok : forall e x, HWU64 e x = Ok (weight 64 x).
Proof.
  intros e x. unfold HWU64. rewrite !HWU32_ok.
  cbv beta iota delta [bind]. f_equal. apply (weight_halves e 32).
Qed.

Lemma HWU_ok : forall e w l, w <> W256 -> typedV w l -> HWU e w l = Ok (vweight (cb w) l).
Proof.
  intros e w l Hw Hl. apply vec_of_iff in Hl. destruct Hl as [HL HB]. unfold shapeV in HL.
  pose proof (HB 0) as H0. clear HB.
  destruct w; try congruence; cbn [nw cb] in *;
    repeat (destruct l as [|? l]; cbn [length] in HL; try discriminate);
    cbn [nth] in H0; unfold HWU, HWU128, aget, nth_error; cbv beta iota delta [bind];
    cbn [vweight]; rewrite ?N.add_0_r.
  - rewrite HWU8_ok by exact H0. reflexivity.
  - rewrite HWU8_ok by exact H0. reflexivity.
  - apply HWU16_ok.
  - apply HWU32_ok.
  - apply HWU64_ok.
  - rewrite !HWU64_ok. reflexivity.
Qed.

(** weight and parity agree *)
Lemma weight_odd : forall n x, N.odd (weight n x) = parity n x.
Proof.
  induction n as [|n IH]; intros x; [reflexivity|].
  simpl weight. rewrite N.odd_add, IH. unfold parity. simpl xsum. f_equal.
  destruct (N.testbit x (N.of_nat n)); reflexivity.
Qed.
Lemma vweight_odd : forall w l, shapeV w l -> N.odd (vweight (cb w) l) = vparity w l.
Proof.
  intros w l HL. unfold shapeV in HL. unfold vparity. revert HL.
  generalize (nw w) as n. induction l as [|x l IH]; intros n HL; simpl in HL; subst n.
  - reflexivity.
  - simpl vweight. rewrite N.odd_add, weight_odd, (IH (length l) eq_refl). simpl length.
    replace (S (length l)) with (1 + length l) by lia. rewrite xsum_add. cbn [xsum nth Nat.add].
    rewrite xorb_false_l. reflexivity.
Qed.
