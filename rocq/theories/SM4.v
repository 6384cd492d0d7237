(** src/sm4.c of the white-box example computes SM4. *)
From Coq Require Import Arith NArith ZArith List Bool Lia.
From Verif Require Import Base Tables Model Spec LinAlg Mem Cons Rand ModelSM4 SpecSM4.
Import ListNotations.

(** ** Arithmetic on words *)

Definition low (x : N) : N := (x mod 2 ^ 32)%N.

Lemma mod_bits : forall x n k, N.testbit (x mod 2 ^ n) k = N.testbit x k && (k <? n)%N.
Proof.
  intros x n k. destruct (N.ltb_spec k n).
  - rewrite N.mod_pow2_bits_low, andb_true_r by auto. reflexivity.
  - rewrite N.mod_pow2_bits_high, andb_false_r by auto. reflexivity.
Qed.
Lemma low_lxor : forall a b, low (N.lxor a b) = N.lxor (low a) (low b).
Proof.
  intros a b. apply N.bits_inj. intros k. unfold low. rewrite N.lxor_spec, !mod_bits, N.lxor_spec.
  destruct (N.testbit a k), (N.testbit b k), (k <? 32)%N; reflexivity.
Qed.
Lemma low_id : forall x, (x < 2 ^ 32)%N -> low x = x.
Proof. intros. apply N.mod_small; auto. Qed.
Lemma low_bound : forall x, (low x < 2 ^ 32)%N.
Proof. intros. apply N.mod_lt. discriminate. Qed.

(** a number with zeros below position k plus a smaller one *)
Lemma lor_add : forall a b k, (b < 2 ^ k)%N -> N.lor (a * 2 ^ k) b = (a * 2 ^ k + b)%N.
Proof.
  intros a b k Hb. assert (E : N.land (a * 2 ^ k) b = 0%N).
  { apply N.bits_inj. intros j. rewrite N.land_spec, N.bits_0.
    destruct (N.lt_ge_cases j k).
    - rewrite N.mul_pow2_bits_low by auto. reflexivity.
    - rewrite (testbit_high b k) by auto. apply andb_false_r. }
  rewrite N.add_nocarry_lxor, N.lxor_lor by auto. reflexivity.
Qed.
Lemma lxor_add : forall a b k, (b < 2 ^ k)%N -> N.lxor (a * 2 ^ k) b = (a * 2 ^ k + b)%N.
Proof.
  intros a b k Hb. rewrite <- lor_add by auto. apply N.lxor_lor.
  apply N.bits_inj. intros j. rewrite N.land_spec, N.bits_0.
  destruct (N.lt_ge_cases j k).
  - rewrite N.mul_pow2_bits_low by auto. reflexivity.
  - rewrite (testbit_high b k) by auto. apply andb_false_r.
Qed.

Lemma byte_bound : forall x k, (byte x k < 256)%N.
Proof. intros. apply N.mod_lt. discriminate. Qed.
Lemma word_bound : forall a b c d, (a < 256 -> b < 256 -> c < 256 -> d < 256 -> word_of a b c d < 2 ^ 32)%N.
Proof. intros. unfold word_of. change (2 ^ 32)%N with 4294967296%N. change (2 ^ 24)%N with 16777216%N.
  change (2 ^ 16)%N with 65536%N. change (2 ^ 8)%N with 256%N. lia. Qed.

Lemma byte_bits : forall x k j, N.testbit (byte x k) j = N.testbit x (j + 8 * k) && (j <? 8)%N.
Proof.
  intros x k j. unfold byte. change 256%N with (2 ^ 8)%N at 2. rewrite mod_bits. f_equal.
  change 256%N with (2 ^ 8)%N. rewrite <- N.pow_mul_r, <- N.shiftr_div_pow2, N.shiftr_spec by lia.
  reflexivity.
Qed.
Lemma byte_low : forall x k, (k < 4)%N -> byte (low x) k = byte x k.
Proof.
  intros x k Hk. apply N.bits_inj. intros j. rewrite !byte_bits. unfold low. rewrite mod_bits.
  destruct (N.ltb_spec j 8); [|rewrite !andb_false_r; reflexivity].
  destruct (N.ltb_spec (j + 8 * k) 32); [|lia]. rewrite !andb_true_r. reflexivity.
Qed.
Lemma byte_lxor : forall x y k, byte (N.lxor x y) k = N.lxor (byte x k) (byte y k).
Proof.
  intros x y k. apply N.bits_inj. intros j. rewrite N.lxor_spec, !byte_bits, N.lxor_spec.
  destruct (N.testbit x (j + 8 * k)), (N.testbit y (j + 8 * k)), (j <? 8)%N; reflexivity.
Qed.
Lemma uchar_byte : forall x k, uchar (N.shiftr x (8 * k)) = byte x k.
Proof.
  intros x k. unfold uchar, byte. rewrite N.shiftr_div_pow2, N.pow_mul_r. reflexivity.
Qed.
Lemma land_byte : forall x k, N.land (N.shiftr x (8 * k)) 255 = byte x k.
Proof.
  intros x k. rewrite <- uchar_byte. unfold uchar. change 255%N with (N.ones 8).
  apply N.land_ones.
Qed.

Lemma word_lor : forall a b c d, (b < 256 -> c < 256 -> d < 256 ->
  N.lor (N.lor (N.lor (N.shiftl a 24) (N.shiftl b 16)) (N.shiftl c 8)) d = word_of a b c d)%N.
Proof.
  intros a b c d Hb Hc Hd. rewrite !N.shiftl_mul_pow2. unfold word_of.
  assert (H8 : (2 ^ 8 = 256)%N) by reflexivity.
  rewrite (lor_add a (b * 2 ^ 16) 24).
  2:{ change (2 ^ 24)%N with (256 * 2 ^ 16)%N. apply N.mul_lt_mono_pos_r; auto. reflexivity. }
  replace (a * 2 ^ 24 + b * 2 ^ 16)%N with ((a * 256 + b) * 2 ^ 16)%N.
  2:{ change (2 ^ 24)%N with (256 * 2 ^ 16)%N. ring. }
  rewrite (lor_add (a * 256 + b) (c * 2 ^ 8) 16).
  2:{ change (2 ^ 16)%N with (256 * 2 ^ 8)%N. apply N.mul_lt_mono_pos_r; auto. reflexivity. }
  replace ((a * 256 + b) * 2 ^ 16 + c * 2 ^ 8)%N with (((a * 256 + b) * 256 + c) * 2 ^ 8)%N.
  2:{ change (2 ^ 16)%N with (256 * 2 ^ 8)%N. ring. }
  rewrite (lor_add _ d 8) by (rewrite H8; auto).
  change (2 ^ 24)%N with (256 * 256 * 2 ^ 8)%N. change (2 ^ 16)%N with (256 * 2 ^ 8)%N. ring.
Qed.
Lemma word_lxor : forall a b c d, (b < 256 -> c < 256 -> d < 256 ->
  N.lxor (N.lxor (N.lxor (N.shiftl a 24) (N.shiftl b 16)) (N.shiftl c 8)) d = word_of a b c d)%N.
Proof.
  intros a b c d Hb Hc Hd. rewrite !N.shiftl_mul_pow2. unfold word_of.
  assert (H8 : (2 ^ 8 = 256)%N) by reflexivity.
  rewrite (lxor_add a (b * 2 ^ 16) 24).
  2:{ change (2 ^ 24)%N with (256 * 2 ^ 16)%N. apply N.mul_lt_mono_pos_r; auto. reflexivity. }
  replace (a * 2 ^ 24 + b * 2 ^ 16)%N with ((a * 256 + b) * 2 ^ 16)%N.
  2:{ change (2 ^ 24)%N with (256 * 2 ^ 16)%N. ring. }
  rewrite (lxor_add (a * 256 + b) (c * 2 ^ 8) 16).
  2:{ change (2 ^ 16)%N with (256 * 2 ^ 8)%N. apply N.mul_lt_mono_pos_r; auto. reflexivity. }
  replace ((a * 256 + b) * 2 ^ 16 + c * 2 ^ 8)%N with (((a * 256 + b) * 256 + c) * 2 ^ 8)%N.
  2:{ change (2 ^ 16)%N with (256 * 2 ^ 8)%N. ring. }
  rewrite (lxor_add _ d 8) by (rewrite H8; auto).
  change (2 ^ 24)%N with (256 * 256 * 2 ^ 8)%N. change (2 ^ 16)%N with (256 * 2 ^ 8)%N. ring.
Qed.

Lemma word_bytes : forall x, (x < 2 ^ 32)%N -> word_of (byte x 3) (byte x 2) (byte x 1) (byte x 0) = x.
Proof.
  intros x Hx. rewrite <- word_lxor by apply byte_bound. apply N.bits_inj. intros k.
  rewrite !N.lxor_spec.
  assert (G : forall m, N.testbit (N.shiftl (byte x m) (8 * m)) k
              = N.testbit x k && ((8 * m <=? k) && (k <? 8 * m + 8))%N).
  { intros m. destruct (N.leb_spec (8 * m) k) as [H|H].
    - rewrite N.shiftl_spec_high by lia. rewrite byte_bits.
      replace (k - 8 * m + 8 * m)%N with k by lia. f_equal. cbn [andb].
      destruct (N.ltb_spec (k - 8 * m) 8), (N.ltb_spec k (8 * m + 8)); auto; lia.
    - rewrite N.shiftl_spec_low by lia. rewrite andb_false_r. reflexivity. }
  change 24%N with (8 * 3)%N. change 16%N with (8 * 2)%N. change (N.shiftl (byte x 1) 8) with (N.shiftl (byte x 1) (8 * 1)).
  replace (byte x 0) with (N.shiftl (byte x 0) (8 * 0)) by apply N.shiftl_0_r.
  rewrite !G. destruct (N.lt_ge_cases k 32) as [H|H].
  - repeat match goal with |- context [N.leb ?a ?b] => destruct (N.leb_spec a b)
                         | |- context [N.ltb ?a ?b] => destruct (N.ltb_spec a b) end;
      destruct (N.testbit x k); auto; lia.
  - rewrite (testbit_high x 32) by auto. reflexivity.
Qed.
Lemma byte_shiftl : forall a m k, (a < 256)%N ->
  byte (N.shiftl a (8 * m)) k = if N.eqb m k then a else 0%N.
Proof.
  intros a m k Ha. apply N.bits_inj. intros j. rewrite byte_bits.
  destruct (N.ltb_spec j 8) as [Hj|Hj].
  - rewrite andb_true_r. destruct (N.eqb_spec m k) as [->|Hne].
    + rewrite N.shiftl_spec_high by lia. f_equal. lia.
    + rewrite N.bits_0. destruct (N.lt_ge_cases (j + 8 * k) (8 * m)).
      * apply N.shiftl_spec_low; auto.
      * rewrite N.shiftl_spec_high by lia. apply (testbit_high a 8); [exact Ha|lia].
  - rewrite andb_false_r. destruct (N.eqb m k); [|rewrite N.bits_0; reflexivity].
    symmetry. apply (testbit_high a 8); auto.
Qed.
Lemma byte_word : forall a b c d, (a < 256 -> b < 256 -> c < 256 -> d < 256 ->
  byte (word_of a b c d) 3 = a /\ byte (word_of a b c d) 2 = b /\
  byte (word_of a b c d) 1 = c /\ byte (word_of a b c d) 0 = d)%N.
Proof.
  intros a b c d Ha Hb Hc Hd. rewrite <- word_lxor by auto.
  change (N.shiftl a 24) with (N.shiftl a (8 * 3)). change (N.shiftl b 16) with (N.shiftl b (8 * 2)).
  change (N.shiftl c 8) with (N.shiftl c (8 * 1)).
  replace d with (N.shiftl d (8 * 0)) at 1 2 3 4 by apply N.shiftl_0_r.
  rewrite !byte_lxor, !byte_shiftl by auto. cbn [N.eqb Pos.eqb].
  rewrite ?N.lxor_0_l, ?N.lxor_0_r. auto.
Qed.
Lemma word_xor : forall a b c d a' b' c' d', (a < 256 -> b < 256 -> c < 256 -> d < 256 ->
  a' < 256 -> b' < 256 -> c' < 256 -> d' < 256 ->
  N.lxor (word_of a b c d) (word_of a' b' c' d')
  = word_of (N.lxor a a') (N.lxor b b') (N.lxor c c') (N.lxor d d'))%N.
Proof.
  intros. rewrite <- (word_bytes (N.lxor _ _)).
  2:{ apply lxor_bound; apply word_bound; auto. }
  rewrite !byte_lxor.
  destruct (byte_word a b c d) as (-> & -> & -> & ->); auto.
  destruct (byte_word a' b' c' d') as (-> & -> & -> & ->); auto.
Qed.

(** ** Reading and writing words *)

Lemma byte_lt_pow : forall b u, (b < 256)%N -> forall k, (k <= 24)%N -> ulw u (N.shiftl b k) = N.shiftl b k.
Proof.
  intros b u Hb k Hk. unfold ulw. apply N.mod_small. rewrite N.shiftl_mul_pow2.
  apply N.lt_le_trans with (2 ^ 32)%N.
  - apply N.lt_le_trans with (256 * 2 ^ k)%N.
    + apply N.mul_lt_mono_pos_r; auto. apply N.neq_0_lt_0, N.pow_nonzero. lia.
    + change 256%N with (2 ^ 8)%N. rewrite <- N.pow_add_r. apply N.pow_le_mono_r; lia.
  - apply N.pow_le_mono_r; [lia|]. destruct u; cbn; lia.
Qed.
Lemma nth_byte : forall l i, Forall (fun x => (x < 256)%N) l -> (nth i l 0 < 256)%N.
Proof.
  intros l i H. destruct (Nat.lt_ge_cases i (length l)).
  - rewrite Forall_forall in H. apply H. apply nth_In. auto.
  - rewrite nth_overflow by auto. reflexivity.
Qed.
Lemma GET_ok : forall u l i, Forall (fun x => (x < 256)%N) l -> i + 4 <= length l ->
  GET_ULONG_BE u l i = Ok (word_of (nth i l 0%N) (nth (i + 1) l 0%N) (nth (i + 2) l 0%N) (nth (i + 3) l 0%N)).
Proof.
  intros u l i H Hi. unfold GET_ULONG_BE. rewrite !(aget_ok _ _ _ 0%N) by lia. cbn [bind].
  pose proof (fun j => nth_byte l j H) as B.
  rewrite !byte_lt_pow by (auto; lia). rewrite word_lor by auto. reflexivity.
Qed.
Lemma GET32_ok : forall l i, Forall (fun x => (x < 256)%N) l -> i + 4 <= length l ->
  GET32 l i = Ok (word_of (nth i l 0%N) (nth (i + 1) l 0%N) (nth (i + 2) l 0%N) (nth (i + 3) l 0%N)).
Proof.
  intros l i H Hi. unfold GET32. rewrite !(aget_ok _ _ _ 0%N) by lia. cbn [bind].
  pose proof (fun j => nth_byte l j H) as B. unfold u32.
  change (2 ^ 32)%N with (2 ^ ulbits UL32)%N. fold (ulw UL32 (N.shiftl (nth i l 0%N) 24)).
  fold (ulw UL32 (N.shiftl (nth (i + 1) l 0%N) 16)). fold (ulw UL32 (N.shiftl (nth (i + 2) l 0%N) 8)).
  rewrite !byte_lt_pow by (auto; lia). rewrite word_lxor by auto. reflexivity.
Qed.

(** ** S-box and linear maps *)

Lemma sbox_check : forallb (fun i => N.eqb (nth i sm4_SboxTable 0%N) (sbox (N.of_nat i))) (seq 0 256) = true.
Proof. vm_compute. reflexivity. Qed.
Lemma sbox_nth : forall x, (x < 256)%N -> nth (N.to_nat x) sm4_SboxTable 0%N = sbox x.
Proof.
  intros x Hx. pose proof sbox_check as H. rewrite forallb_forall in H.
  specialize (H (N.to_nat x)). rewrite in_seq, N2Nat.id in H. apply N.eqb_eq. apply H. lia.
Qed.
Lemma sm4Sbox_ok : forall x, (x < 256)%N -> sm4Sbox x = Ok (sbox x).
Proof.
  intros x Hx. unfold sm4Sbox. rewrite (aget_ok _ _ _ 0%N) by (change (length sm4_SboxTable) with 256; lia).
  rewrite sbox_nth by auto. reflexivity.
Qed.
Lemma table_bytes : Forall (fun x => (x < 256)%N) sm4_SboxTable.
Proof.
  apply Forall_forall. intros x Hx.
  assert (H : forallb (fun x => N.ltb x 256) sm4_SboxTable = true) by (vm_compute; reflexivity).
  rewrite forallb_forall in H. apply N.ltb_lt. auto.
Qed.
Lemma sbox_bound : forall x, (x < 256)%N -> (sbox x < 256)%N.
Proof. intros x Hx. rewrite <- sbox_nth by auto. apply nth_byte, table_bytes. Qed.

Opaque sbox byte.
Lemma tau_bound : forall x, (tau x < 2 ^ 32)%N.
Proof. intros. apply word_bound; apply sbox_bound, byte_bound. Qed.
Lemma tau_low : forall x, tau (low x) = tau x.
Proof. intros x. unfold tau. rewrite !byte_low by lia. reflexivity. Qed.

Lemma sm4_tau_ok : forall u x, sm4_tau u x = Ok (tau x).
Proof.
  intros u x. unfold sm4_tau.
  change (PUT_ULONG_BE x (repeat 0%N 4) 0) with
    (Ok [uchar (N.shiftr x (8 * 3)); uchar (N.shiftr x (8 * 2)); uchar (N.shiftr x (8 * 1)); uchar x]).
  cbn [bind]. rewrite !uchar_byte.
  replace (uchar x) with (byte x 0) by (rewrite <- uchar_byte; reflexivity).
  unfold for_up. cbn [Nat.sub up_n aget nth_error bind].
  repeat (rewrite sm4Sbox_ok by apply byte_bound; cbn [bind repeat aset Nat.ltb Nat.leb length upd]).
  rewrite GET_ok; [cbn [nth Nat.add]; reflexivity| |cbn; lia].
  repeat constructor; apply sbox_bound, byte_bound.
Qed.

Lemma ROTL_low : forall u x n, (x < 2 ^ 32)%N -> (n <= 32)%N -> low (ROTL u x n) = rotl x n.
Proof.
  intros u x n Hx Hn. unfold ROTL, SHL, rotl.
  replace (N.land x 4294967295) with x.
  2:{ change 4294967295%N with (N.ones 32). rewrite N.land_ones. symmetry. apply N.mod_small. auto. }
  rewrite N.shiftl_mul_pow2, N.shiftr_div_pow2.
  set (h := (x * 2 ^ n)%N). set (l := (x / 2 ^ (32 - n))%N).
  assert (Hl : (l < 2 ^ n)%N).
  { unfold l. apply N.div_lt_upper_bound; [apply N.pow_nonzero; lia|].
    rewrite <- N.pow_add_r. replace (32 - n + n)%N with 32%N by lia. auto. }
  assert (E : low (N.lor (ulw u h) l) = N.lor (h mod 2 ^ 32) l).
  { apply N.bits_inj. intros k. unfold low, ulw. rewrite mod_bits, !N.lor_spec, !mod_bits.
    destruct (N.ltb_spec k 32).
    - destruct (N.ltb_spec k (ulbits u)); [rewrite !andb_true_r; reflexivity|destruct u; cbn in *; lia].
    - rewrite !andb_false_r. cbn [orb]. symmetry. apply (testbit_high l n); auto. lia. }
  rewrite E. assert (F : exists q, (h mod 2 ^ 32 = q * 2 ^ n)%N).
  { exists (x mod 2 ^ (32 - n))%N. unfold h.
    replace (2 ^ 32)%N with (2 ^ (32 - n) * 2 ^ n)%N.
    2:{ rewrite <- N.pow_add_r. f_equal. lia. }
    rewrite N.mul_mod_distr_r by (apply N.pow_nonzero; lia). reflexivity. }
  destruct F as [q ->]. apply lor_add. exact Hl.
Qed.

Lemma sm4Lt_ok : forall u x, exists c, sm4Lt u x = Ok c /\ low c = linL (tau x).
Proof.
  intros u x. unfold sm4Lt. rewrite sm4_tau_ok. cbn [bind]. eexists. split; [reflexivity|].
  rewrite !low_lxor, !ROTL_low by (try apply tau_bound; lia). rewrite low_id by apply tau_bound.
  unfold linL. rewrite !N.lxor_assoc. reflexivity.
Qed.
Lemma sm4CalciRK_ok : forall u x, exists c, sm4CalciRK u x = Ok c /\ low c = linL' (tau x).
Proof.
  intros u x. unfold sm4CalciRK. rewrite sm4_tau_ok. cbn [bind]. eexists. split; [reflexivity|].
  rewrite !low_lxor, !ROTL_low by (try apply tau_bound; lia). rewrite low_id by apply tau_bound.
  unfold linL'. rewrite !N.lxor_assoc. reflexivity.
Qed.

(** ** Sequences of rounds *)

Definition first4 (x : quad) : N := let '(a, _, _, _) := x in a.
Definition Xs (F : nat -> N -> N -> N -> N -> N) (x : quad) (j : nat) : N := first4 (rounds F j x).
Lemma rounds_Xs : forall F x n,
  rounds F n x = (Xs F x n, Xs F x (n + 1), Xs F x (n + 2), Xs F x (n + 3)).
Proof.
  intros F x n. unfold Xs. replace (n + 1) with (S n) by lia. replace (n + 2) with (S (S n)) by lia.
  replace (n + 3) with (S (S (S n))) by lia. simpl rounds.
  destruct (rounds F n x) as [[[a b] c] d]. reflexivity.
Qed.
Lemma Xs_step : forall F x n,
  Xs F x (n + 4) = F n (Xs F x n) (Xs F x (n + 1)) (Xs F x (n + 2)) (Xs F x (n + 3)).
Proof.
  intros F x n. pose proof (rounds_Xs F x (S n)) as H. pose proof (rounds_Xs F x n) as G.
  simpl rounds in H. rewrite G in H. injection H. intros H1 _ _ _.
  replace (n + 4) with (S (n + 3)) by lia. rewrite H1. reflexivity.
Qed.
Lemma Xs_init : forall F a b c d, Xs F (a, b, c, d) 0 = a /\ Xs F (a, b, c, d) 1 = b /\
  Xs F (a, b, c, d) 2 = c /\ Xs F (a, b, c, d) 3 = d.
Proof. intros. repeat split. Qed.
Lemma rounds_ext : forall F G n x, (forall i a b c d, i < n -> F i a b c d = G i a b c d) ->
  rounds F n x = rounds G n x.
Proof.
  intros F G n x. induction n as [|n IH]; intros H; [reflexivity|]. simpl.
  rewrite IH by (intros; apply H; lia). destruct (rounds G n x) as [[[a b] c] d].
  rewrite H by lia. reflexivity.
Qed.

(** ** Key schedule *)

Lemma FK_nth : forall i, i < 4 -> nth i sm4_FK 0%N = FK i.
Proof. intros i Hi. do 4 (destruct i as [|i]; [reflexivity|]). lia. Qed.
Lemma CK_check : forallb (fun i => N.eqb (nth i sm4_CK 0%N) (CK i)) (seq 0 32) = true.
Proof. vm_compute. reflexivity. Qed.
Lemma CK_nth : forall i, i < 32 -> nth i sm4_CK 0%N = CK i.
Proof.
  intros i Hi. pose proof CK_check as H. rewrite forallb_forall in H.
  specialize (H i). rewrite in_seq in H. apply N.eqb_eq. apply H. lia.
Qed.
Lemma FK_bound : forall i, (FK i < 2 ^ 32)%N.
Proof. intros i. do 4 (destruct i as [|i]; [reflexivity|]). reflexivity. Qed.
Lemma CK_bound : forall i, (CK i < 2 ^ 32)%N.
Proof. intros i. unfold CK. apply word_bound; apply N.mod_lt; discriminate. Qed.
Lemma be_word_bound : forall l i, Forall (fun x => (x < 256)%N) l -> (be_word l i < 2 ^ 32)%N.
Proof. intros. apply word_bound; apply nth_byte; auto. Qed.

Definition key_F (i : nat) (a b c d : N) : N := N.lxor a (linL' (tau (xor4 b c d (CK i)))).
Definition key_init (key : list N) : quad :=
  (N.lxor (be_word key 0) (FK 0), N.lxor (be_word key 1) (FK 1),
   N.lxor (be_word key 2) (FK 2), N.lxor (be_word key 3) (FK 3)).
Lemma round_key_Xs : forall key i, round_key key i = Xs key_F (key_init key) (i + 4).
Proof.
  intros key i. unfold round_key, quad_of. fold (key_init key).
  change (fun i a b c d => N.lxor a (linL' (tau (xor4 b c d (CK i))))) with key_F.
  rewrite rounds_Xs. cbn [last4]. f_equal. lia.
Qed.

Lemma low_xor4 : forall a b c d, low (N.lxor (N.lxor (N.lxor a b) c) d) = xor4 (low a) (low b) (low c) (low d).
Proof. intros. rewrite !low_lxor. unfold xor4. rewrite !N.lxor_assoc. reflexivity. Qed.

Lemma sm4_setkey_wp : forall u SK key, bytes 16 key -> length SK = 32 ->
  wp (sm4_setkey u SK key) (fun sk => length sk = 32 /\
    forall i, i < 32 -> low (nth i sk 0%N) = round_key key i).
Proof.
  intros u SK key [KL KB] HS. unfold sm4_setkey. apply wp_bind.
  set (X := Xs key_F (key_init key)).
  apply wp_for_up with (I := fun i k => length k = 36 /\
    forall j, j < i -> nth j k 0%N = N.lxor (be_word key j) (FK j)).
  - lia.
  - split; [reflexivity|]. intros; lia.
  - intros i k _ Hi [HL Hk]. rewrite GET_ok by (auto; lia). cbn [bind].
    apply wp_bind. apply wp_aget with (d := 0%N); [cbn; lia|]. rewrite FK_nth by auto.
    apply wp_aset; [lia|]. split; [rewrite length_upd; auto|].
    intros j Hj. rewrite nth_upd by lia. destruct (Nat.eqb_spec j i) as [->|]; [reflexivity|].
    apply Hk. lia.
  - intros k [HL Hk]. apply wp_bind.
    apply wp_for_up with (I := fun i (st : list N * list N) => let (k, S) := st in
      length k = 36 /\ length S = 32 /\ (forall j, j < i + 4 -> low (nth j k 0%N) = X j) /\
      (forall j, j < i -> low (nth j S 0%N) = X (j + 4))).
    + lia.
    + split; auto. split; auto. split; [|intros; lia].
      intros j Hj. rewrite Hk by lia.
      rewrite low_id by (apply lxor_bound; [apply be_word_bound; auto|apply FK_bound]).
      do 4 (destruct j as [|j]; [reflexivity|]). lia.
    + clear k HL Hk. intros i [k S] _ Hi (HL & HLS & Hk & HkS).
      apply wp_bind. apply wp_aget with (d := 0%N); [lia|].
      apply wp_bind. apply wp_aget with (d := 0%N); [lia|].
      apply wp_bind. apply wp_aget with (d := 0%N); [lia|].
      apply wp_bind. apply wp_aget with (d := 0%N); [cbn; lia|].
      apply wp_bind. apply wp_aget with (d := 0%N); [lia|].
      rewrite CK_nth by auto.
      match goal with |- context [sm4CalciRK u ?a] => destruct (sm4CalciRK_ok u a) as (c & E & Ec) end.
      rewrite E. cbn [bind].
      assert (Ex : low (N.lxor (nth i k 0%N) c) = X (i + 4)).
      { rewrite low_lxor, Ec, <- tau_low, low_xor4, !Hk by lia.
        rewrite (low_id (CK i)) by apply CK_bound. unfold X. rewrite Xs_step. reflexivity. }
      apply wp_bind. apply wp_aset; [lia|]. apply wp_bind. apply wp_aset; [lia|]. apply wp_ok.
      rewrite !length_upd. split; auto. split; auto. split.
      * intros j Hj. rewrite nth_upd by lia. destruct (Nat.eqb_spec j (i + 4)) as [->|]; auto.
        apply Hk. lia.
      * intros j Hj. rewrite nth_upd by lia. destruct (Nat.eqb_spec j i) as [->|]; auto.
        apply HkS. lia.
    + intros [k' S'] (_ & HLS & _ & HkS). apply wp_ok. cbn [snd]. split; auto.
      intros i Hi. rewrite round_key_Xs. apply HkS. auto.
Qed.

(** ** One block *)

Definition enc_F (rk : nat -> N) (i : nat) (a b c d : N) : N := N.lxor a (linL (tau (xor4 b c d (rk i)))).

Lemma sm4F_ok : forall u x0 x1 x2 x3 rk, exists y, sm4F u x0 x1 x2 x3 rk = Ok y /\
  low y = N.lxor (low x0) (linL (tau (xor4 (low x1) (low x2) (low x3) (low rk)))).
Proof.
  intros. unfold sm4F.
  destruct (sm4Lt_ok u (N.lxor (N.lxor (N.lxor x1 x2) x3) rk)) as (c & E & Ec).
  rewrite E. cbn [bind]. eexists. split; [reflexivity|].
  rewrite low_lxor, Ec, <- tau_low, low_xor4. reflexivity.
Qed.

(** [slice l p n]: the n bytes from position p *)
Definition slice (l : list N) (p n : nat) : list N := firstn n (skipn p l).
Lemma nth_skipn : forall A (l : list A) p i d, nth i (skipn p l) d = nth (p + i) l d.
Proof.
  intros A l p. revert l. induction p as [|p IH]; intros l i d; [reflexivity|].
  destruct l as [|x l]; simpl; [destruct i; reflexivity|]. apply IH.
Qed.
Lemma nth_firstn_lt : forall A (l : list A) n i d, i < n -> nth i (firstn n l) d = nth i l d.
Proof.
  intros A l n. revert l. induction n as [|n IH]; intros l i d Hi; [lia|].
  destruct l as [|x l]; [reflexivity|]. destruct i as [|i]; [reflexivity|]. simpl. apply IH. lia.
Qed.
Lemma nth_slice : forall l p n i, i < n -> nth i (slice l p n) 0%N = nth (p + i) l 0%N.
Proof. intros. unfold slice. rewrite nth_firstn_lt by auto. apply nth_skipn. Qed.
Lemma length_slice : forall l p n, p + n <= length l -> length (slice l p n) = n.
Proof. intros. unfold slice. rewrite firstn_length, skipn_length. lia. Qed.
Lemma slice_eq : forall l p n r, p + n <= length l -> length r = n ->
  (forall i, i < n -> nth (p + i) l 0%N = nth i r 0%N) -> slice l p n = r.
Proof.
  intros l p n r Hl Hr H. apply list_ext with (d := 0%N).
  - rewrite length_slice by auto. auto.
  - rewrite length_slice by auto. intros i Hi. rewrite nth_slice by auto. apply H. auto.
Qed.
Lemma Forall_nth_byte : forall l, (forall i, i < length l -> (nth i l 0 < 256)%N) ->
  Forall (fun x => (x < 256)%N) l.
Proof.
  intros l H. apply Forall_forall. intros x Hx. destruct (In_nth l x 0%N Hx) as (i & Hi & <-). auto.
Qed.
Lemma bytes_slice : forall l p n, Forall (fun x => (x < 256)%N) l -> p + n <= length l -> bytes n (slice l p n).
Proof.
  intros l p n H Hl. split; [apply length_slice; auto|].
  apply Forall_nth_byte. rewrite length_slice by auto. intros i Hi. rewrite nth_slice by auto.
  apply nth_byte. auto.
Qed.

(** writing a word: the bytes and the rest *)
Lemma wp_PUT : forall x l p (Q : list N -> Prop), p + 4 <= length l ->
  (forall l', length l' = length l ->
     (forall i, nth i l' 0%N = if (Nat.leb p i && Nat.ltb i (p + 4))%bool
                               then nth (i - p) (be_bytes x) 0%N else nth i l 0%N) -> Q l') ->
  wp (PUT_ULONG_BE x l p) Q.
Proof.
  intros x l p Q Hp HQ. unfold PUT_ULONG_BE.
  apply wp_bind. apply wp_aset; [lia|]. apply wp_bind. apply wp_aset; [rewrite length_upd; lia|].
  apply wp_bind. apply wp_aset; [rewrite !length_upd; lia|]. apply wp_aset; [rewrite !length_upd; lia|].
  apply HQ; [rewrite !length_upd; reflexivity|].
  intros i. rewrite !nth_upd by (rewrite ?length_upd; lia).
  change (N.shiftr x 24) with (N.shiftr x (8 * 3)). change (N.shiftr x 16) with (N.shiftr x (8 * 2)).
  change (N.shiftr x 8) with (N.shiftr x (8 * 1)).
  replace (uchar x) with (uchar (N.shiftr x (8 * 0))) by reflexivity. rewrite !uchar_byte.
  destruct (Nat.leb_spec p i), (Nat.ltb_spec i (p + 4)); cbn [andb].
  - unfold be_bytes. destruct (Nat.eqb_spec i (p + 3)) as [->|].
    { replace (p + 3 - p) with 3 by lia. reflexivity. }
    destruct (Nat.eqb_spec i (p + 2)) as [->|]. { replace (p + 2 - p) with 2 by lia. reflexivity. }
    destruct (Nat.eqb_spec i (p + 1)) as [->|]. { replace (p + 1 - p) with 1 by lia. reflexivity. }
    destruct (Nat.eqb_spec i p) as [->|]. { rewrite Nat.sub_diag. reflexivity. } lia.
  - repeat match goal with |- context [Nat.eqb ?a ?b] => destruct (Nat.eqb_spec a b); [lia|] end. reflexivity.
  - repeat match goal with |- context [Nat.eqb ?a ?b] => destruct (Nat.eqb_spec a b); [lia|] end. reflexivity.
  - lia.
Qed.
Lemma be_bytes_low : forall x, be_bytes (low x) = be_bytes x.
Proof. intros x. unfold be_bytes. rewrite !byte_low by lia. reflexivity. Qed.

Lemma be_word_slice : forall l p i, i < 4 -> be_word (slice l p 16) i =
  word_of (nth (p + 4 * i) l 0%N) (nth (p + 4 * i + 1) l 0%N) (nth (p + 4 * i + 2) l 0%N) (nth (p + 4 * i + 3) l 0%N).
Proof.
  intros l p i Hi. unfold be_word. rewrite !nth_slice by lia. rewrite !Nat.add_assoc. reflexivity.
Qed.

(** [l'] is [l] with the bytes [r] written at position p *)
Definition written (l l' : list N) (p : nat) (r : list N) : Prop :=
  length l' = length l /\
  forall i, nth i l' 0%N = if (Nat.leb p i && Nat.ltb i (p + length r))%bool
                           then nth (i - p) r 0%N else nth i l 0%N.

Lemma sm4_one_round_wp : forall u sk rk input ip output op,
  length sk = 32 -> (forall i, i < 32 -> low (nth i sk 0%N) = rk i) ->
  Forall (fun x => (x < 256)%N) input -> ip + 16 <= length input -> op + 16 <= length output ->
  wp (sm4_one_round u sk input ip output op)
     (fun o => written output o op (sm4_block rk (slice input ip 16))).
Proof.
  intros u sk rk input ip output op HL Hrk HB Hip Hop. unfold sm4_one_round. apply wp_bind.
  set (x := slice input ip 16). set (X := Xs (enc_F rk) (quad_of x)).
  apply wp_for_up with (I := fun i b => length b = 36 /\ forall j, j < i -> nth j b 0%N = be_word x j).
  { lia. } { split; [reflexivity|]. intros; lia. }
  { intros i b _ Hi [Lb Hb]. rewrite GET_ok by (auto; lia). cbn [bind]. apply wp_aset; [lia|].
    rewrite length_upd. split; auto. intros j Hj. rewrite nth_upd by lia.
    destruct (Nat.eqb_spec j i) as [->|]; [|apply Hb; lia].
    unfold x. rewrite be_word_slice by auto. reflexivity. }
  intros b [Lb Hb]. apply wp_bind.
  apply wp_for_up with (I := fun i b => length b = 36 /\ forall j, j < i + 4 -> low (nth j b 0%N) = X j).
  { lia. }
  { split; auto. intros j Hj. rewrite Hb by lia. rewrite low_id.
    - do 4 (destruct j as [|j]; [reflexivity|]). lia.
    - apply be_word_bound. apply bytes_slice; auto. }
  { clear b Lb Hb. intros i b _ Hi [Lb Hb].
    do 4 (apply wp_bind; apply wp_aget with (d := 0%N); [lia|]).
    apply wp_bind. apply wp_aget with (d := 0%N); [lia|].
    match goal with |- context [sm4F u ?a ?b ?c ?d ?e] => destruct (sm4F_ok u a b c d e) as (y & E & Ey) end.
    rewrite E. cbn [bind]. apply wp_aset; [lia|]. rewrite length_upd. split; auto.
    intros j Hj. rewrite nth_upd by lia. destruct (Nat.eqb_spec j (i + 4)) as [->|]; [|apply Hb; lia].
    rewrite Ey, !Hb, Hrk by lia. unfold X. rewrite Xs_step. reflexivity. }
  clear b Lb Hb. intros b [Lb Hb].
  set (r := sm4_block rk x).
  assert (Er : r = be_bytes (X 35) ++ be_bytes (X 34) ++ be_bytes (X 33) ++ be_bytes (X 32)).
  { unfold r, sm4_block. change (fun i a b c d => N.lxor a (linL (tau (xor4 b c d (rk i))))) with (enc_F rk).
    rewrite rounds_Xs. reflexivity. }
  apply wp_for_up with (I := fun i o => length o = length output /\
    forall j, nth j o 0%N = if (Nat.leb op j && Nat.ltb j (op + 4 * i))%bool
                            then nth (j - op) r 0%N else nth j output 0%N).
  { lia. }
  { split; auto. intros j. destruct (Nat.leb_spec op j), (Nat.ltb_spec j (op + 4 * 0)); auto; lia. }
  { intros i o _ Hi [Lo Ho]. apply wp_bind. apply wp_aget with (d := 0%N); [lia|].
    apply wp_PUT; [lia|]. intros o' Lo' Ho'. split; [lia|].
    intros j. rewrite Ho', Ho.
    destruct (Nat.leb_spec op j), (Nat.ltb_spec j (op + 4 * i)), (Nat.ltb_spec j (op + 4 * S i)),
      (Nat.leb_spec (op + 4 * i) j), (Nat.ltb_spec j (op + 4 * i + 4)); cbn [andb]; auto; try lia.
    rewrite <- be_bytes_low, Hb by lia. rewrite Er.
    assert (Hj : exists q, q < 4 /\ j = op + 4 * i + q) by (exists (j - (op + 4 * i)); lia).
    destruct Hj as (q & Hq & ->). replace (op + 4 * i + q - (op + 4 * i)) with q by lia.
    replace (op + 4 * i + q - op) with (4 * i + q) by lia.
    do 4 (destruct i as [|i]; [do 4 (destruct q as [|q]; [reflexivity|]); lia|]). lia. }
  intros o [Lo Ho]. split; auto.
Qed.

Lemma sm4_setkey_dec_wp : forall u SK key, bytes 16 key -> length SK = 32 ->
  wp (sm4_setkey_dec u SK key) (fun sk => length sk = 32 /\
    forall i, i < 32 -> low (nth i sk 0%N) = round_key key (31 - i)).
Proof.
  intros u SK key HK HS. unfold sm4_setkey_dec. apply wp_bind.
  eapply wp_mono; [apply sm4_setkey_wp; auto|]. intros sk [Ls Hs].
  apply wp_for_up with (I := fun i t => length t = 32 /\ forall j, j < 32 ->
    nth j t 0%N = if (Nat.ltb j i || Nat.ltb (31 - j) i)%bool then nth (31 - j) sk 0%N else nth j sk 0%N).
  - lia.
  - split; auto.
  - intros i t _ Hi [Lt Ht].
    do 2 (apply wp_bind; apply wp_aget with (d := 0%N); [lia|]).
    apply wp_bind. apply wp_aset; [lia|]. apply wp_aset; [rewrite length_upd; lia|].
    rewrite !length_upd. split; auto. intros j Hj.
    rewrite !nth_upd by (rewrite ?length_upd; lia). rewrite !Ht by lia.
    destruct (Nat.eqb_spec j (31 - i)), (Nat.eqb_spec j i);
      repeat match goal with |- context [Nat.ltb ?a ?b] => destruct (Nat.ltb_spec a b); try lia end;
      cbn [orb]; auto; f_equal; lia.
  - intros t [Lt Ht]. split; auto. intros i Hi. rewrite Ht by auto.
    assert (E : (Nat.ltb i 16 || Nat.ltb (31 - i) 16)%bool = true).
    { destruct (Nat.ltb_spec i 16), (Nat.ltb_spec (31 - i) 16); auto; lia. }
    rewrite E. apply Hs. lia.
Qed.

(** ** Decryption inverts encryption *)

Lemma rotl_bound : forall x n, (x < 2 ^ 32 -> n <= 32 -> rotl x n < 2 ^ 32)%N.
Proof. intros x n Hx Hn. rewrite <- (ROTL_low UL32) by auto. apply low_bound. Qed.
Lemma linL_bound : forall x, (x < 2 ^ 32 -> linL x < 2 ^ 32)%N.
Proof. intros x Hx. unfold linL. repeat apply lxor_bound; auto; apply rotl_bound; auto; lia. Qed.
Lemma linL'_bound : forall x, (x < 2 ^ 32 -> linL' x < 2 ^ 32)%N.
Proof. intros x Hx. unfold linL'. repeat apply lxor_bound; auto; apply rotl_bound; auto; lia. Qed.
Lemma quad_bound : forall l, Forall (fun x => (x < 256)%N) l -> forall j, j < 4 ->
  forall F, (Xs F (quad_of l) j < 2 ^ 32)%N.
Proof.
  intros l Hl j Hj F. do 4 (destruct j as [|j]; [apply be_word_bound; auto|]). lia.
Qed.
Lemma Xs_enc_bound : forall rk l, Forall (fun x => (x < 256)%N) l -> forall j,
  (Xs (enc_F rk) (quad_of l) j < 2 ^ 32)%N.
Proof.
  intros rk l Hl j. induction j as [j IH] using lt_wf_ind.
  destruct (Nat.lt_ge_cases j 4); [apply quad_bound; auto|].
  replace j with (j - 4 + 4) by lia. rewrite Xs_step. unfold enc_F at 1.
  apply lxor_bound; [apply IH; lia|]. apply linL_bound, tau_bound.
Qed.
Lemma sm4_block_Xs : forall rk x, sm4_block rk x =
  be_bytes (Xs (enc_F rk) (quad_of x) 35) ++ be_bytes (Xs (enc_F rk) (quad_of x) 34) ++
  be_bytes (Xs (enc_F rk) (quad_of x) 33) ++ be_bytes (Xs (enc_F rk) (quad_of x) 32).
Proof.
  intros. unfold sm4_block. change (fun i a b c d => N.lxor a (linL (tau (xor4 b c d (rk i))))) with (enc_F rk).
  rewrite rounds_Xs. reflexivity.
Qed.
Lemma be_bytes_Forall : forall x, Forall (fun x => (x < 256)%N) (be_bytes x).
Proof. intros. unfold be_bytes. repeat constructor; apply byte_bound. Qed.
Lemma sm4_block_bytes : forall rk x, bytes 16 (sm4_block rk x).
Proof.
  intros. rewrite sm4_block_Xs. split; [reflexivity|].
  repeat (apply Forall_app; split); apply be_bytes_Forall.
Qed.
Lemma quad_of_be : forall a b c d, (a < 2 ^ 32)%N -> (b < 2 ^ 32)%N -> (c < 2 ^ 32)%N -> (d < 2 ^ 32)%N ->
  quad_of (be_bytes a ++ be_bytes b ++ be_bytes c ++ be_bytes d) = (a, b, c, d).
Proof.
  intros a b c d Ha Hb Hc Hd. unfold quad_of, be_word. cbn [be_bytes app nth Nat.mul Nat.add].
  rewrite !word_bytes by auto. reflexivity.
Qed.
Lemma be_bytes_word : forall l, bytes 16 l ->
  be_bytes (be_word l 0) ++ be_bytes (be_word l 1) ++ be_bytes (be_word l 2) ++ be_bytes (be_word l 3) = l.
Proof.
  intros l [HL HF]. do 16 (destruct l as [|? l]; [discriminate HL|]). destruct l; [|discriminate HL].
  unfold be_word, be_bytes. cbn [nth Nat.mul Nat.add].
  repeat match goal with H : Forall _ (_ :: _) |- _ => inversion H; subst; clear H end.
  repeat match goal with |- context [word_of ?a ?b ?c ?d] =>
    destruct (byte_word a b c d) as (-> & -> & -> & ->); auto end.
Qed.
Lemma xor4_rev : forall a b c d, xor4 a b c d = xor4 c b a d.
Proof.
  intros. unfold xor4. apply N.bits_inj. intros k. rewrite !N.lxor_spec.
  destruct (N.testbit a k), (N.testbit b k), (N.testbit c k), (N.testbit d k); reflexivity.
Qed.
Lemma block_inverse : forall rk x, bytes 16 x -> sm4_block (fun i => rk (31 - i)) (sm4_block rk x) = x.
Proof.
  intros rk x Hx. pose proof (Xs_enc_bound rk x (proj2 Hx)) as HB.
  set (X := Xs (enc_F rk) (quad_of x)) in *.
  rewrite sm4_block_Xs. rewrite (sm4_block_Xs rk x). fold X. rewrite quad_of_be by apply HB.
  set (dk := fun i => rk (31 - i)).
  set (Y := Xs (enc_F dk) (X 35, X 34, X 33, X 32)).
  assert (E : forall j, j < 36 -> Y j = X (35 - j)).
  { intros j. induction j as [j IH] using lt_wf_ind. intros Hj.
    destruct (Nat.lt_ge_cases j 4).
    - do 4 (destruct j as [|j]; [reflexivity|]). lia.
    - unfold Y. replace j with (j - 4 + 4) by lia. rewrite Xs_step. fold Y.
      rewrite !IH by lia. unfold enc_F at 1, dk.
      replace (35 - (j - 4)) with (35 - j + 4) by lia. unfold X at 1. rewrite Xs_step. fold X.
      unfold enc_F at 1.
      replace (35 - (j - 4 + 1)) with (35 - j + 3) by lia.
      replace (35 - (j - 4 + 2)) with (35 - j + 2) by lia.
      replace (35 - (j - 4 + 3)) with (35 - j + 1) by lia.
      replace (31 - (j - 4)) with (35 - j) by lia. replace (35 - (j - 4 + 4)) with (35 - j) by lia.
      rewrite (xor4_rev (X (35 - j + 3))).
      rewrite N.lxor_assoc, N.lxor_nilpotent, N.lxor_0_r. reflexivity. }
  rewrite !E by lia. cbn [Nat.sub]. unfold X.
  destruct (Xs_init (enc_F rk) (be_word x 0) (be_word x 1) (be_word x 2) (be_word x 3)) as (E0 & E1 & E2 & E3).
  unfold quad_of. rewrite E0, E1, E2, E3. apply be_bytes_word. auto.
Qed.
Lemma block_inverse' : forall rk x, bytes 16 x -> sm4_block rk (sm4_block (fun i => rk (31 - i)) x) = x.
Proof.
  intros rk x Hx. rewrite <- (block_inverse (fun i => rk (31 - i)) x Hx) at 2.
  unfold sm4_block at 1 3. rewrite (rounds_ext _ (fun i a b c d =>
    N.lxor a (linL (tau (xor4 b c d (rk (31 - (31 - i)))))))); [reflexivity|].
  intros i a b c d Hi. replace (31 - (31 - i)) with i by lia. reflexivity.
Qed.

(** ** Modes *)

Lemma nth_app : forall A (l r : list A) i d,
  nth i (l ++ r) d = if Nat.ltb i (length l) then nth i l d else nth (i - length l) r d.
Proof.
  intros. destruct (Nat.ltb_spec i (length l)); [apply app_nth1|apply app_nth2]; auto.
Qed.
Lemma written_app : forall pre rest l' p r, length pre = p -> length r <= length rest ->
  written (pre ++ rest) l' p r -> l' = pre ++ r ++ skipn (length r) rest.
Proof.
  intros pre rest l' p r Hp Hr [L H]. rewrite app_length in L. apply list_ext with (d := 0%N).
  - rewrite !app_length, skipn_length. lia.
  - intros i Hi. rewrite H, !nth_app, nth_skipn. rewrite Hp.
    destruct (Nat.leb_spec p i), (Nat.ltb_spec i (p + length r)), (Nat.ltb_spec i p),
      (Nat.ltb_spec (i - p) (length r)); cbn [andb]; auto; try lia. f_equal. lia.
Qed.
Lemma slice_app : forall pre b rest p n, length pre = p -> length b = n -> slice (pre ++ b ++ rest) p n = b.
Proof.
  intros pre b rest p n <- <-. unfold slice. rewrite skipn_app, skipn_all, Nat.sub_diag.
  cbn [skipn app]. rewrite firstn_app, firstn_all, Nat.sub_diag. cbn [firstn]. apply app_nil_r.
Qed.

Lemma skipn_skipn : forall A (l : list A) a b, skipn a (skipn b l) = skipn (b + a) l.
Proof.
  intros A l a b. revert l. induction b as [|b IH]; intros l; [reflexivity|].
  destruct l; cbn [skipn Nat.add]; [destruct a; reflexivity|]. apply IH.
Qed.

Lemma last_cons : forall A (l : list A) c d, last (c :: l) d = last l c.
Proof.
  intros A l. induction l as [|x l IH]; intros c d; [reflexivity|].
  change (last (c :: x :: l) d) with (last (x :: l) d). rewrite !IH. reflexivity.
Qed.
Definition blocks (bs : list (list N)) : Prop := Forall (bytes 16) bs.
Lemma blocks_len : forall bs, blocks bs -> length (concat bs) = 16 * length bs.
Proof.
  induction bs as [|b r IH]; intros H; [reflexivity|]. inversion H as [|? ? Hb Hr]; subst.
  cbn [concat length]. rewrite app_length, IH by auto. rewrite (proj1 Hb). lia.
Qed.
Lemma blocks_bytes : forall bs, blocks bs -> Forall (fun x => (x < 256)%N) (concat bs).
Proof.
  induction bs as [|b r IH]; intros H; [constructor|]. inversion H as [|? ? Hb Hr]; subst.
  cbn [concat]. apply Forall_app. split; [apply Hb|auto].
Qed.

Lemma wp_ok_inv : forall A (r : res A) Q, wp r Q -> exists a, r = Ok a /\ Q a.
Proof. intros A [a|] Q H; [eauto|destruct H]. Qed.

Definition keys_ok (sk : list N) (rk : nat -> N) : Prop :=
  length sk = 32 /\ forall i, i < 32 -> low (nth i sk 0%N) = rk i.

Lemma ecb_loop_ok : forall u sk rk, keys_ok sk rk -> forall bs fuel pre post opre orest p,
  blocks bs -> Forall (fun x => (x < 256)%N) (pre ++ concat bs ++ post) ->
  length bs <= fuel -> length pre = p -> length opre = p -> 16 * length bs <= length orest ->
  ecb_loop fuel u sk (16 * Z.of_nat (length bs)) (pre ++ concat bs ++ post) p (opre ++ orest)
  = Ok (opre ++ concat (map (sm4_block rk) bs) ++ skipn (16 * length bs) orest).
Proof.
  intros u sk rk [Hl Hk]. induction bs as [|b r IH]; intros fuel pre post opre orest p HB HF Hf Hp Ho Hr.
  - cbn [length concat map app]. change (16 * 0) with 0. cbn [skipn].
    destruct fuel; [reflexivity|]. cbn [ecb_loop]. reflexivity.
  - cbn [length] in *. destruct fuel as [|fuel]; [lia|]. cbn [ecb_loop].
    destruct (Z.ltb_spec 0 (16 * Z.of_nat (S (length r)))); [|lia].
    inversion HB as [|? ? Hb Hr']; subst.
    pose proof (sm4_one_round_wp u sk rk (pre ++ concat (b :: r) ++ post) (length pre) (opre ++ orest) (length pre)
      Hl Hk HF) as W.
    pose proof (blocks_len (b :: r) HB) as HL. cbn [length] in HL.
    destruct (wp_ok_inv _ _ _ (W ltac:(rewrite !app_length; lia) ltac:(rewrite !app_length; lia))) as (o & E & Wo).
    rewrite E. cbn [bind].
    cbn [concat] in Wo. rewrite <- app_assoc in Wo.
    rewrite slice_app in Wo by (auto; apply Hb).
    apply written_app in Wo; auto. 2:{ rewrite (proj1 (sm4_block_bytes rk b)). lia. }
    rewrite (proj1 (sm4_block_bytes rk b)) in Wo. rewrite app_assoc in Wo. subst o.
    replace (16 * Z.of_nat (S (length r)) - 16)%Z with (16 * Z.of_nat (length r))%Z by lia.
    replace (pre ++ concat (b :: r) ++ post) with ((pre ++ b) ++ concat r ++ post)
      by (cbn [concat]; rewrite <- !app_assoc; reflexivity).
    rewrite IH; auto; try lia.
    + cbn [map concat]. rewrite <- !app_assoc, skipn_skipn.
      replace (16 * S (length r)) with (16 + 16 * length r) by lia. reflexivity.
    + cbn [concat] in HF. rewrite <- app_assoc. rewrite <- (app_assoc b) in HF. auto.
    + rewrite app_length, (proj1 Hb). lia.
    + rewrite app_length, (proj1 (sm4_block_bytes rk b)). lia.
    + rewrite skipn_length. lia.
Qed.

(** The 16-byte loops *)
Lemma cpy16_wp : forall dst src q, length dst = 16 -> q + 16 <= length src ->
  cpy16 dst src q = Ok (slice src q 16).
Proof.
  intros dst src q Hd Hq. unfold cpy16.
  cut (wp (for_up 0 16 (fun i d => x <- aget src (q + i) ;; aset d i x) dst) (fun d => d = slice src q 16)).
  { intros H. apply wp_ok_inv in H. destruct H as (a & E & ->). exact E. }
  apply wp_for_up with (I := fun i d => length d = 16 /\ forall j, j < i -> nth j d 0%N = nth (q + j) src 0%N).
  - lia.
  - split; auto. intros; lia.
  - intros i d _ Hi [Ld H]. apply wp_bind. apply wp_aget with (d := 0%N); [lia|]. apply wp_aset; [lia|].
    rewrite length_upd. split; auto. intros j Hj. rewrite nth_upd by lia.
    destruct (Nat.eqb_spec j i) as [->|]; auto. apply H. lia.
  - intros d [Ld H]. symmetry. apply slice_eq; auto. intros i Hi. symmetry. auto.
Qed.
Lemma xor_list_nth : forall a b i, i < length a -> i < length b ->
  nth i (xor_list a b) 0%N = N.lxor (nth i a 0%N) (nth i b 0%N).
Proof.
  induction a as [|x a IH]; intros b i Ha Hb; [cbn in Ha; lia|]. destruct b as [|y b]; [cbn in Hb; lia|].
  destruct i as [|i]; [reflexivity|]. cbn [xor_list nth]. apply IH; cbn in *; lia.
Qed.
Lemma xor_list_length : forall a b, length a = length b -> length (xor_list a b) = length a.
Proof.
  induction a as [|x a IH]; intros [|y b] H; cbn in *; try reflexivity; try discriminate. f_equal. apply IH. lia.
Qed.
Lemma xor_list_bytes : forall n a b, bytes n a -> bytes n b -> bytes n (xor_list a b).
Proof.
  intros n a b [La Ha] [Lb Hb]. split; [rewrite xor_list_length; congruence|].
  apply Forall_nth_byte. rewrite xor_list_length by congruence. intros i Hi.
  rewrite xor_list_nth by lia. change 256%N with (2 ^ 8)%N.
  apply lxor_bound; apply (nth_byte _ i); auto.
Qed.
Lemma xor_list_inv : forall a b, length a = length b -> xor_list (xor_list a b) b = a.
Proof.
  induction a as [|x a IH]; intros [|y b] H; cbn in *; try reflexivity; try discriminate.
  rewrite N.lxor_assoc, N.lxor_nilpotent, N.lxor_0_r. f_equal. apply IH. lia.
Qed.
Lemma uchar_id : forall x, (x < 256)%N -> uchar x = x.
Proof. intros. apply N.mod_small. auto. Qed.
Lemma xor_byte : forall x y, (x < 256 -> y < 256 -> N.lxor x y < 256)%N.
Proof. intros. change 256%N with (2 ^ 8)%N. apply lxor_bound; auto. Qed.

(** dst[p + i] = a[q + i] ^ b[i] *)
Lemma xor16_wp : forall dst p a q b, p + 16 <= length dst -> q + 16 <= length a -> length b = 16 ->
  Forall (fun x => (x < 256)%N) a -> Forall (fun x => (x < 256)%N) b ->
  wp (xor16 dst p a q b) (fun d => written dst d p (xor_list (slice a q 16) b)).
Proof.
  intros dst p a q b Hp Hq Hb Fa Fb. unfold xor16.
  assert (LS : length (slice a q 16) = 16) by (apply length_slice; auto).
  assert (LX : length (xor_list (slice a q 16) b) = 16) by (rewrite xor_list_length; congruence).
  apply wp_for_up with (I := fun i d => length d = length dst /\
    forall j, nth j d 0%N = if (Nat.leb p j && Nat.ltb j (p + i))%bool
                            then nth (j - p) (xor_list (slice a q 16) b) 0%N else nth j dst 0%N).
  - lia.
  - split; auto. intros j. destruct (Nat.leb_spec p j), (Nat.ltb_spec j (p + 0)); auto; lia.
  - intros i d _ Hi [Ld H]. do 2 (apply wp_bind; apply wp_aget with (d := 0%N); [lia|]).
    apply wp_aset; [lia|]. rewrite length_upd. split; auto. intros j. rewrite nth_upd by lia. rewrite H.
    rewrite uchar_id by (apply xor_byte; apply nth_byte; auto).
    destruct (Nat.eqb_spec j (p + i)) as [->|].
    + destruct (Nat.leb_spec p (p + i)), (Nat.ltb_spec (p + i) (p + S i)); try lia. cbn [andb].
      replace (p + i - p) with i by lia. rewrite xor_list_nth by lia. rewrite nth_slice by auto. reflexivity.
    + destruct (Nat.leb_spec p j), (Nat.ltb_spec j (p + i)), (Nat.ltb_spec j (p + S i)); cbn [andb]; auto; lia.
  - intros d [Ld H]. split; auto. intros j. rewrite LX. apply H.
Qed.
(** dst[p + i] = dst[p + i] ^ b[i] *)
Lemma xor16_self_wp : forall dst p b, p + 16 <= length dst -> length b = 16 ->
  Forall (fun x => (x < 256)%N) (slice dst p 16) -> Forall (fun x => (x < 256)%N) b ->
  wp (for_up 0 16 (fun i d => x <- aget d (p + i) ;; y <- aget b i ;;
                aset d (p + i) (uchar (N.lxor x y))) dst)
     (fun d => written dst d p (xor_list (slice dst p 16) b)).
Proof.
  intros dst p b Hp Hb Fa Fb.
  assert (LS : length (slice dst p 16) = 16) by (apply length_slice; auto).
  assert (LX : length (xor_list (slice dst p 16) b) = 16) by (rewrite xor_list_length; congruence).
  apply wp_for_up with (I := fun i d => length d = length dst /\
    forall j, nth j d 0%N = if (Nat.leb p j && Nat.ltb j (p + i))%bool
                            then nth (j - p) (xor_list (slice dst p 16) b) 0%N else nth j dst 0%N).
  - lia.
  - split; auto. intros j. destruct (Nat.leb_spec p j), (Nat.ltb_spec j (p + 0)); auto; lia.
  - intros i d _ Hi [Ld H]. do 2 (apply wp_bind; apply wp_aget with (d := 0%N); [lia|]).
    apply wp_aset; [lia|]. rewrite length_upd. split; auto. intros j. rewrite nth_upd by lia.
    rewrite !H. destruct (Nat.ltb_spec (p + i) (p + i)); [lia|]. rewrite andb_false_r.
    rewrite uchar_id.
    2:{ rewrite <- nth_slice with (n := 16) by auto. apply xor_byte; apply nth_byte; auto. }
    destruct (Nat.eqb_spec j (p + i)) as [->|].
    + destruct (Nat.leb_spec p (p + i)), (Nat.ltb_spec (p + i) (p + S i)); try lia. cbn [andb].
      replace (p + i - p) with i by lia. rewrite xor_list_nth by lia. rewrite nth_slice by auto. reflexivity.
    + destruct (Nat.leb_spec p j), (Nat.ltb_spec j (p + i)), (Nat.ltb_spec j (p + S i)); cbn [andb]; auto; lia.
  - intros d [Ld H]. split; auto. intros j. rewrite LX. apply H.
Qed.

Lemma cbc_enc_ok : forall u sk rk, keys_ok sk rk -> forall bs fuel iv pre post opre orest p,
  blocks bs -> bytes 16 iv -> Forall (fun x => (x < 256)%N) (pre ++ concat bs ++ post) ->
  Forall (fun x => (x < 256)%N) opre -> Forall (fun x => (x < 256)%N) orest ->
  length bs <= fuel -> length pre = p -> length opre = p -> 16 * length bs <= length orest ->
  cbc_enc_loop fuel u sk (16 * Z.of_nat (length bs)) iv (pre ++ concat bs ++ post) p (opre ++ orest)
  = Ok (last (CBC_encrypt (sm4_block rk) iv bs) iv,
        opre ++ concat (CBC_encrypt (sm4_block rk) iv bs) ++ skipn (16 * length bs) orest).
Proof.
  intros u sk rk HK. induction bs as [|b r IH]; intros fuel iv pre post opre orest p HB HI HF HO HR Hf Hp Ho Hr.
  - cbn [length concat app CBC_encrypt last]. change (16 * 0) with 0. cbn [skipn].
    destruct fuel; [reflexivity|]. cbn [cbc_enc_loop]. reflexivity.
  - cbn [length] in *. destruct fuel as [|fuel]; [lia|]. cbn [cbc_enc_loop].
    destruct (Z.ltb_spec 0 (16 * Z.of_nat (S (length r)))); [|lia].
    inversion HB as [|? ? Hb Hr']; subst.
    pose proof (blocks_len (b :: r) HB) as HL. cbn [length] in HL.
    assert (Hsl : slice (pre ++ concat (b :: r) ++ post) (length pre) 16 = b).
    { cbn [concat]. rewrite <- app_assoc. apply slice_app; auto. apply Hb. }
    pose proof (xor16_wp (opre ++ orest) (length pre) (pre ++ concat (b :: r) ++ post) (length pre) iv) as W.
    destruct (wp_ok_inv _ _ _ (W ltac:(rewrite !app_length; lia) ltac:(rewrite !app_length; lia) (proj1 HI) HF (proj2 HI)))
      as (o1 & E & Wo). clear W.
    rewrite E. cbn [bind]. clear E. rewrite Hsl in Wo.
    pose proof (xor_list_bytes 16 b iv Hb HI) as HX. set (x := xor_list b iv) in *.
    apply written_app in Wo; auto; [|rewrite (proj1 HX); lia]. rewrite (proj1 HX) in Wo.
    assert (F1 : Forall (fun x => (x < 256)%N) (skipn 16 orest)).
    { rewrite <- (firstn_skipn 16 orest) in HR. apply Forall_app in HR. apply HR. }
    pose proof (sm4_one_round_wp u sk rk o1 (length pre) o1 (length pre) (proj1 HK) (proj2 HK)) as W.
    assert (Fo : Forall (fun x => (x < 256)%N) o1).
    { rewrite Wo. repeat (apply Forall_app; split); auto. apply HX. }
    assert (Lo : length o1 = length opre + length orest).
    { rewrite Wo, !app_length, skipn_length, (proj1 HX). lia. }
    destruct (wp_ok_inv _ _ _ (W Fo ltac:(lia) ltac:(lia))) as (o2 & E & Wo2). clear W. rewrite E. cbn [bind]. clear E.
    rewrite Wo in Wo2. rewrite slice_app in Wo2 by (auto; apply HX).
    pose proof (sm4_block_bytes rk x) as HC. set (c := sm4_block rk x) in *.
    apply written_app in Wo2; auto.
    2:{ rewrite (proj1 HC), app_length, (proj1 HX). lia. }
    rewrite (proj1 HC) in Wo2. rewrite skipn_app, (proj1 HX), Nat.sub_diag in Wo2.
    rewrite (skipn_all2 x) in Wo2 by (rewrite (proj1 HX); lia). cbn [app] in Wo2.
    change (skipn 0 (skipn 16 orest)) with (skipn 16 orest) in Wo2.
    rewrite cpy16_wp.
    2:{ apply HI. }
    2:{ rewrite Wo2, !app_length, (proj1 HC). lia. }
    assert (Hs2 : slice o2 (length pre) 16 = c) by (rewrite Wo2; apply slice_app; auto; apply HC).
    rewrite Hs2. cbn [bind].
    replace (16 * Z.of_nat (S (length r)) - 16)%Z with (16 * Z.of_nat (length r))%Z by lia.
    replace (pre ++ concat (b :: r) ++ post) with ((pre ++ b) ++ concat r ++ post)
      by (cbn [concat]; rewrite <- !app_assoc; reflexivity).
    rewrite Wo2, (app_assoc opre c).
    rewrite IH; auto; try lia.
    + cbn [CBC_encrypt]. fold x. fold c. cbn [concat]. rewrite <- !app_assoc, skipn_skipn.
      replace (16 * S (length r)) with (16 + 16 * length r) by lia. rewrite last_cons. reflexivity.
    + cbn [concat] in HF. rewrite <- app_assoc. rewrite <- (app_assoc b) in HF. auto.
    + apply Forall_app. split; auto. apply HC.
    + rewrite app_length, (proj1 Hb). lia.
    + rewrite app_length, (proj1 HC). lia.
    + rewrite skipn_length. lia.
Qed.

Lemma cbc_dec_ok : forall u sk rk, keys_ok sk rk -> forall bs fuel iv pre post opre orest p,
  blocks bs -> bytes 16 iv -> Forall (fun x => (x < 256)%N) (pre ++ concat bs ++ post) ->
  length bs <= fuel -> length pre = p -> length opre = p -> 16 * length bs <= length orest ->
  cbc_dec_loop fuel u sk (16 * Z.of_nat (length bs)) iv (pre ++ concat bs ++ post) p (opre ++ orest)
  = Ok (last bs iv,
        opre ++ concat (CBC_decrypt (sm4_block rk) iv bs) ++ skipn (16 * length bs) orest).
Proof.
  intros u sk rk HK. induction bs as [|b r IH]; intros fuel iv pre post opre orest p HB HI HF Hf Hp Ho Hr.
  - cbn [length concat app CBC_decrypt last]. change (16 * 0) with 0. cbn [skipn].
    destruct fuel; [reflexivity|]. cbn [cbc_dec_loop]. reflexivity.
  - cbn [length] in *. destruct fuel as [|fuel]; [lia|]. cbn [cbc_dec_loop].
    destruct (Z.ltb_spec 0 (16 * Z.of_nat (S (length r)))); [|lia].
    inversion HB as [|? ? Hb Hr']; subst.
    pose proof (blocks_len (b :: r) HB) as HL. cbn [length] in HL.
    assert (Hsl : slice (pre ++ concat (b :: r) ++ post) (length pre) 16 = b).
    { cbn [concat]. rewrite <- app_assoc. apply slice_app; auto. apply Hb. }
    rewrite cpy16_wp by (auto; rewrite !app_length; lia). rewrite Hsl. cbn [bind].
    pose proof (sm4_one_round_wp u sk rk (pre ++ concat (b :: r) ++ post) (length pre) (opre ++ orest)
      (length pre) (proj1 HK) (proj2 HK) HF) as W.
    destruct (wp_ok_inv _ _ _ (W ltac:(rewrite !app_length; lia) ltac:(rewrite !app_length; lia)))
      as (o1 & E & Wo). clear W. rewrite E. cbn [bind]. clear E. rewrite Hsl in Wo.
    pose proof (sm4_block_bytes rk b) as HC. set (c := sm4_block rk b) in *.
    apply written_app in Wo; auto; [|rewrite (proj1 HC); lia]. rewrite (proj1 HC) in Wo.
    assert (Lo : length o1 = length opre + length orest).
    { rewrite Wo, !app_length, skipn_length, (proj1 HC). lia. }
    assert (Hs1 : slice o1 (length pre) 16 = c) by (rewrite Wo; apply slice_app; auto; apply HC).
    pose proof (xor16_self_wp o1 (length pre) iv) as W.
    destruct (wp_ok_inv _ _ _ (W ltac:(lia) (proj1 HI) ltac:(rewrite Hs1; apply HC) (proj2 HI))) as (o2 & E & Wo2).
    clear W. rewrite E. cbn [bind]. clear E. rewrite Hs1 in Wo2.
    pose proof (xor_list_bytes 16 c iv HC HI) as HX. set (x := xor_list c iv) in *.
    rewrite Wo in Wo2. apply written_app in Wo2; auto.
    2:{ rewrite (proj1 HX), app_length, (proj1 HC). lia. }
    rewrite (proj1 HX) in Wo2. rewrite skipn_app, (proj1 HC), Nat.sub_diag in Wo2.
    rewrite (skipn_all2 c) in Wo2 by (rewrite (proj1 HC); lia). cbn [app] in Wo2.
    change (skipn 0 (skipn 16 orest)) with (skipn 16 orest) in Wo2.
    rewrite cpy16_wp.
    2:{ apply HI. }
    2:{ rewrite (proj1 Hb). lia. }
    assert (Hs2 : slice b 0 16 = b).
    { unfold slice. cbn [skipn]. apply firstn_all2. rewrite (proj1 Hb). lia. }
    rewrite Hs2. cbn [bind].
    replace (16 * Z.of_nat (S (length r)) - 16)%Z with (16 * Z.of_nat (length r))%Z by lia.
    replace (pre ++ concat (b :: r) ++ post) with ((pre ++ b) ++ concat r ++ post)
      by (cbn [concat]; rewrite <- !app_assoc; reflexivity).
    rewrite Wo2, (app_assoc opre x).
    rewrite IH; auto; try lia.
    + cbn [CBC_decrypt]. fold c. fold x. cbn [concat]. rewrite <- !app_assoc, skipn_skipn.
      replace (16 * S (length r)) with (16 + 16 * length r) by lia. rewrite last_cons. reflexivity.
    + cbn [concat] in HF. rewrite <- app_assoc. rewrite <- (app_assoc b) in HF. auto.
    + rewrite app_length, (proj1 Hb). lia.
    + rewrite app_length, (proj1 HX). lia.
    + rewrite skipn_length. lia.
Qed.

(** Lengths that are not a multiple of the block length *)
Lemma run_inv : forall St (I : nat -> St -> Prop) body a b s z, a <= b ->
  I a s -> (forall i t t', a <= i < b -> I i t -> body i t = Ok t' -> I (S i) t') ->
  for_up a b body s = Ok z -> I b z.
Proof.
  intros St I body a b s z Hab H0 Hs. unfold for_up. remember (b - a) as k eqn:Ek.
  revert a s Hab H0 Hs Ek. induction k as [|k IH]; intros a s Hab H0 Hs Ek E; cbn [up_n] in E.
  - injection E as <-. replace b with a by lia. exact H0.
  - destruct (body a s) as [s'|] eqn:Eb; [|discriminate]. cbn [bind] in E.
    apply (IH (S a) s'); auto; try lia.
    + apply (Hs a s s'); auto. lia.
    + intros i t t' Hi. apply Hs. lia.
Qed.
Lemma aget_inv : forall A (l : list A) i x, aget l i = Ok x -> i < length l.
Proof.
  intros A l i x. unfold aget. destruct (nth_error l i) eqn:E; [|discriminate]. intros _.
  apply nth_error_Some. congruence.
Qed.
Lemma aset_inv : forall A (l : list A) i x l', aset l i x = Ok l' -> i < length l /\ length l' = length l.
Proof.
  intros A l i x l'. unfold aset. destruct (Nat.ltb_spec i (length l)); [|discriminate].
  intros E. injection E as <-. split; auto. apply length_upd.
Qed.
Ltac okb H := match type of H with bind ?r _ = Ok _ =>
  let E := fresh "E" in destruct r eqn:E; [cbn [bind] in H|discriminate H] end.

Lemma PUT_inv : forall x l p l', PUT_ULONG_BE x l p = Ok l' -> p + 4 <= length l /\ length l' = length l.
Proof.
  intros x l p l' H. unfold PUT_ULONG_BE in H. do 3 okb H.
  repeat match goal with E : aset _ _ _ = Ok _ |- _ => apply aset_inv in E end. lia.
Qed.
Lemma GET_inv : forall u l p x, GET_ULONG_BE u l p = Ok x -> p + 4 <= length l.
Proof.
  intros u l p x H. unfold GET_ULONG_BE in H. do 4 okb H.
  repeat match goal with E : aget _ _ = Ok _ |- _ => apply aget_inv in E end. lia.
Qed.
Lemma one_round_inv : forall u sk input ip output op o,
  sm4_one_round u sk input ip output op = Ok o ->
  ip + 16 <= length input /\ op + 16 <= length output /\ length o = length output.
Proof.
  intros u sk input ip output op o H. unfold sm4_one_round in H. okb H. okb H.
  apply (run_inv _ (fun i _ => 0 < i -> ip + 4 * i <= length input)) in E; try lia.
  2:{ intros i t t' Hi _ F _. okb F. apply GET_inv in E1. lia. }
  apply (run_inv _ (fun i t => length t = length output /\ (0 < i -> op + 4 * i <= length output))) in H; try lia.
  intros i t t' Hi [Lt _] F. okb F. apply PUT_inv in F. lia.
Qed.
Lemma xor16_inv : forall dst p a q b d, xor16 dst p a q b = Ok d ->
  p + 16 <= length dst /\ q + 16 <= length a /\ length d = length dst.
Proof.
  intros dst p a q b d H. unfold xor16 in H.
  apply (run_inv _ (fun i t => length t = length dst /\ (0 < i -> p + i <= length dst /\ q + i <= length a))) in H; try lia.
  intros i t t' Hi [Lt _] F. okb F. okb F. apply aget_inv in E, E0. apply aset_inv in F. lia.
Qed.

Definition round16 (L : Z) : Z := (16 * ((L + 15) / 16))%Z.
Lemma round16_step : forall L, (0 < L)%Z -> (round16 L = 16 + round16 (L - 16))%Z.
Proof.
  intros L H. unfold round16. replace (L + 15)%Z with (L - 16 + 15 + 1 * 16)%Z by lia.
  rewrite Z.div_add by lia. lia.
Qed.
Lemma round16_neg : forall L, (-15 <= L <= 0)%Z -> round16 L = 0%Z.
Proof. intros L H. unfold round16. rewrite Z.div_small by lia. reflexivity. Qed.
Lemma round16_gt : forall L, (L mod 16 <> 0)%Z -> (L < round16 L)%Z.
Proof.
  intros L H. unfold round16. pose proof (Z.div_mod L 16 ltac:(lia)) as D.
  pose proof (Z.mod_pos_bound L 16 ltac:(lia)) as B.
  replace (L + 15)%Z with (L mod 16 - 1 + (L / 16 + 1) * 16)%Z by lia.
  rewrite Z.div_add by lia. rewrite Z.div_small by lia. lia.
Qed.

(** An access-free run needs buffers as long as the length rounded up to blocks *)
Lemma ecb_inv : forall u sk fuel L input p output o, (-15 <= L <= Z.of_nat fuel)%Z ->
  ecb_loop fuel u sk L input p output = Ok o -> (0 < L)%Z ->
  (Z.of_nat p + round16 L <= Z.of_nat (length input))%Z /\
  (Z.of_nat p + round16 L <= Z.of_nat (length output))%Z.
Proof.
  intros u sk. induction fuel as [|fuel IH]; intros L input p output o HL H H0; [lia|].
  cbn [ecb_loop] in H. destruct (Z.ltb_spec 0 L); [|lia]. okb H. apply one_round_inv in E.
  rewrite round16_step by auto. destruct (Z.le_gt_cases (L - 16) 0) as [Hl|Hl].
  - rewrite round16_neg by lia. lia.
  - apply IH in H; lia.
Qed.
Lemma cbc_enc_inv : forall u sk fuel L iv input p output o, (-15 <= L <= Z.of_nat fuel)%Z ->
  cbc_enc_loop fuel u sk L iv input p output = Ok o -> (0 < L)%Z ->
  (Z.of_nat p + round16 L <= Z.of_nat (length input))%Z /\
  (Z.of_nat p + round16 L <= Z.of_nat (length output))%Z.
Proof.
  intros u sk. induction fuel as [|fuel IH]; intros L iv input p output o HL H H0; [lia|].
  cbn [cbc_enc_loop] in H. destruct (Z.ltb_spec 0 L); [|lia]. do 3 okb H.
  apply xor16_inv in E. apply one_round_inv in E0.
  rewrite round16_step by auto. destruct (Z.le_gt_cases (L - 16) 0) as [Hl|Hl].
  - rewrite round16_neg by lia. lia.
  - apply IH in H; lia.
Qed.
Lemma cbc_dec_inv : forall u sk fuel L iv input p output o, (-15 <= L <= Z.of_nat fuel)%Z ->
  cbc_dec_loop fuel u sk L iv input p output = Ok o -> (0 < L)%Z ->
  (Z.of_nat p + round16 L <= Z.of_nat (length input))%Z /\
  (Z.of_nat p + round16 L <= Z.of_nat (length output))%Z.
Proof.
  intros u sk. induction fuel as [|fuel IH]; intros L iv input p output o HL H H0; [lia|].
  cbn [cbc_dec_loop] in H. destruct (Z.ltb_spec 0 L); [|lia]. do 4 okb H.
  apply one_round_inv in E0.
  apply (run_inv _ (fun i t => length t = length output)) in E1; try lia.
  2:{ intros i t t' Hi Ht F. okb F. okb F. apply aset_inv in F. lia. }
  rewrite round16_step by auto. destruct (Z.le_gt_cases (L - 16) 0) as [Hl|Hl].
  - rewrite round16_neg by lia. lia.
  - apply IH in H; lia.
Qed.

(** ** Input and output in the same buffer *)

Lemma written_mid : forall pre b post l' p r, length pre = p -> length b = 16 -> length r = 16 ->
  written (pre ++ b ++ post) l' p r -> l' = (pre ++ r) ++ post.
Proof.
  intros pre b post l' p r Hp Hb Hr W. apply written_app in W; auto.
  - rewrite W, Hr, skipn_app, Hb, Nat.sub_diag, skipn_all2 by lia. rewrite <- app_assoc. reflexivity.
  - rewrite app_length. lia.
Qed.

Lemma one_round_ip : forall u sk rk pre b post p, keys_ok sk rk -> bytes 16 b -> length pre = p ->
  Forall (fun x => (x < 256)%N) (pre ++ b ++ post) ->
  sm4_one_round u sk (pre ++ b ++ post) p (pre ++ b ++ post) p = Ok ((pre ++ sm4_block rk b) ++ post).
Proof.
  intros u sk rk pre b post p [Hl Hk] Hb Hp HF.
  pose proof (sm4_one_round_wp u sk rk (pre ++ b ++ post) p (pre ++ b ++ post) p Hl Hk HF) as W.
  assert (L : p + 16 <= length (pre ++ b ++ post)) by (rewrite !app_length, (proj1 Hb); lia).
  destruct (wp_ok_inv _ _ _ (W L L)) as (o & E & Wo). rewrite E. f_equal.
  rewrite slice_app in Wo by (auto; apply Hb). eapply written_mid; [exact Hp|apply Hb|apply sm4_block_bytes|exact Wo].
Qed.
Lemma xor16_self_ip : forall pre b post p iv, bytes 16 b -> length pre = p -> bytes 16 iv ->
  xor16_self (pre ++ b ++ post) p iv = Ok ((pre ++ xor_list b iv) ++ post).
Proof.
  intros pre b post p iv Hb Hp HI.
  assert (L : p + 16 <= length (pre ++ b ++ post)) by (rewrite !app_length, (proj1 Hb); lia).
  assert (Hs : slice (pre ++ b ++ post) p 16 = b) by (apply slice_app; auto; apply Hb).
  pose proof (xor16_self_wp (pre ++ b ++ post) p iv L (proj1 HI)) as W. rewrite Hs in W.
  destruct (wp_ok_inv _ _ _ (W (proj2 Hb) (proj2 HI))) as (o & E & Wo). unfold xor16_self. rewrite E. f_equal.
  eapply written_mid; [exact Hp|apply Hb|apply (xor_list_bytes 16); auto|exact Wo].
Qed.
Lemma cpy16_ip : forall dst pre b post p, length dst = 16 -> bytes 16 b -> length pre = p ->
  cpy16 dst (pre ++ b ++ post) p = Ok b.
Proof.
  intros dst pre b post p Hd Hb Hp. rewrite cpy16_wp; auto.
  - f_equal. apply slice_app; auto. apply Hb.
  - rewrite !app_length, (proj1 Hb). lia.
Qed.

Lemma ecb_loop_ip_ok : forall u sk rk, keys_ok sk rk -> forall bs fuel pre post p,
  blocks bs -> Forall (fun x => (x < 256)%N) (pre ++ concat bs ++ post) ->
  length bs <= fuel -> length pre = p ->
  ecb_loop_ip fuel u sk (16 * Z.of_nat (length bs)) p (pre ++ concat bs ++ post)
  = Ok (pre ++ concat (map (sm4_block rk) bs) ++ post).
Proof.
  intros u sk rk HK. induction bs as [|b r IH]; intros fuel pre post p HB HF Hf Hp.
  - destruct fuel; reflexivity.
  - cbn [length] in *. destruct fuel as [|fuel]; [lia|]. cbn [ecb_loop_ip].
    destruct (Z.ltb_spec 0 (16 * Z.of_nat (S (length r)))); [|lia].
    inversion HB as [|? ? Hb Hr']; subst. cbn [concat map] in *. rewrite <- !app_assoc in *.
    rewrite (one_round_ip u sk rk) by auto. cbn [bind].
    replace (16 * Z.of_nat (S (length r)) - 16)%Z with (16 * Z.of_nat (length r))%Z by lia.
    rewrite IH; auto; try lia.
    + rewrite <- !app_assoc. reflexivity.
    + rewrite !Forall_app in *. destruct HF as (H1 & H2 & H3). repeat split; auto; try tauto.
      apply sm4_block_bytes.
    + rewrite app_length, (proj1 (sm4_block_bytes rk b)). reflexivity.
Qed.
Lemma cbc_enc_ip_ok : forall u sk rk, keys_ok sk rk -> forall bs fuel iv pre post p,
  blocks bs -> bytes 16 iv -> Forall (fun x => (x < 256)%N) (pre ++ concat bs ++ post) ->
  length bs <= fuel -> length pre = p ->
  cbc_enc_loop_ip fuel u sk (16 * Z.of_nat (length bs)) iv p (pre ++ concat bs ++ post)
  = Ok (last (CBC_encrypt (sm4_block rk) iv bs) iv, pre ++ concat (CBC_encrypt (sm4_block rk) iv bs) ++ post).
Proof.
  intros u sk rk HK. induction bs as [|b r IH]; intros fuel iv pre post p HB HI HF Hf Hp.
  - destruct fuel; reflexivity.
  - cbn [length] in *. destruct fuel as [|fuel]; [lia|]. cbn [cbc_enc_loop_ip].
    destruct (Z.ltb_spec 0 (16 * Z.of_nat (S (length r)))); [|lia].
    inversion HB as [|? ? Hb Hr']; subst. cbn [concat CBC_encrypt] in *. rewrite <- !app_assoc in *.
    rewrite xor16_self_ip by auto. cbn [bind]. rewrite <- app_assoc.
    pose proof (xor_list_bytes 16 b iv Hb HI) as HX.
    assert (F1 : Forall (fun x => (x < 256)%N) (pre ++ xor_list b iv ++ concat r ++ post)).
    { rewrite !Forall_app in *. destruct HF as (H1 & H2 & H3). repeat split; auto; try tauto. apply HX. }
    rewrite (one_round_ip u sk rk) by auto. cbn [bind].
    pose proof (sm4_block_bytes rk (xor_list b iv)) as HC.
    rewrite <- app_assoc, cpy16_ip by (auto; apply HI). cbn [bind]. rewrite (app_assoc pre).
    replace (16 * Z.of_nat (S (length r)) - 16)%Z with (16 * Z.of_nat (length r))%Z by lia.
    rewrite IH; auto; try lia.
    + rewrite last_cons, <- !app_assoc. reflexivity.
    + rewrite !Forall_app in *. destruct F1 as (H1 & H2 & H3). repeat split; auto; try tauto. apply HC.
    + rewrite app_length, (proj1 HC). reflexivity.
Qed.
Lemma cbc_dec_ip_ok : forall u sk rk, keys_ok sk rk -> forall bs fuel iv pre post p,
  blocks bs -> bytes 16 iv -> Forall (fun x => (x < 256)%N) (pre ++ concat bs ++ post) ->
  length bs <= fuel -> length pre = p ->
  cbc_dec_loop_ip fuel u sk (16 * Z.of_nat (length bs)) iv p (pre ++ concat bs ++ post)
  = Ok (last bs iv, pre ++ concat (CBC_decrypt (sm4_block rk) iv bs) ++ post).
Proof.
  intros u sk rk HK. induction bs as [|b r IH]; intros fuel iv pre post p HB HI HF Hf Hp.
  - destruct fuel; reflexivity.
  - cbn [length] in *. destruct fuel as [|fuel]; [lia|]. cbn [cbc_dec_loop_ip].
    destruct (Z.ltb_spec 0 (16 * Z.of_nat (S (length r)))); [|lia].
    inversion HB as [|? ? Hb Hr']; subst. cbn [concat CBC_decrypt] in *. rewrite <- !app_assoc in *.
    rewrite cpy16_ip by (auto; apply repeat_length). cbn [bind].
    rewrite (one_round_ip u sk rk) by auto. cbn [bind].
    pose proof (sm4_block_bytes rk b) as HC.
    rewrite <- app_assoc, xor16_self_ip by auto. cbn [bind].
    pose proof (xor_list_bytes 16 _ iv HC HI) as HX.
    pose proof (cpy16_ip iv [] b [] 0 (proj1 HI) Hb eq_refl) as E. cbn [app] in E. rewrite app_nil_r in E.
    rewrite E. cbn [bind].
    replace (16 * Z.of_nat (S (length r)) - 16)%Z with (16 * Z.of_nat (length r))%Z by lia.
    rewrite IH; auto; try lia.
    + rewrite last_cons, <- !app_assoc. reflexivity.
    + rewrite !Forall_app in *. destruct HF as (H1 & H2 & H3). repeat split; auto; try tauto. apply HX.
    + rewrite app_length, (proj1 HX). reflexivity.
Qed.

(** ** The modes are inverse to each other *)
Lemma CBC_inverse : forall rk bs iv, blocks bs -> bytes 16 iv ->
  CBC_decrypt (sm4_block (fun i => rk (31 - i))) iv (CBC_encrypt (sm4_block rk) iv bs) = bs.
Proof.
  intros rk. induction bs as [|b r IH]; intros iv HB HI; [reflexivity|].
  inversion HB as [|? ? Hb Hr']; subst. cbn [CBC_encrypt CBC_decrypt].
  rewrite block_inverse by (apply xor_list_bytes; auto). rewrite xor_list_inv by (rewrite (proj1 Hb), (proj1 HI); auto).
  rewrite IH; auto. apply sm4_block_bytes.
Qed.
Lemma CBC_blocks : forall rk bs iv, blocks (CBC_encrypt (sm4_block rk) iv bs) /\
  length (CBC_encrypt (sm4_block rk) iv bs) = length bs.
Proof.
  intros rk. induction bs as [|b r IH]; intros iv; [split; [constructor|reflexivity]|].
  cbn [CBC_encrypt length]. destruct (IH (sm4_block rk (xor_list b iv))) as [H1 H2]. split; [|lia].
  constructor; auto. apply sm4_block_bytes.
Qed.
