(** src/aes.c of the white-box AES example: its functions are those of FIPS 197. *)
From Coq Require Import Arith NArith ZArith List Bool Lia.
From Verif Require Import Base Tables Model Spec LinAlg Mem Cons Rand ModelSM4 SpecSM4 SM4 ModelAES SpecAES.
Import ListNotations.

(** ** Bytes *)

Lemma all_bytes : forall P : N -> bool, forallb (fun i => P (N.of_nat i)) (seq 0 256) = true ->
  forall x, (x < 256)%N -> P x = true.
Proof.
  intros P H x Hx. rewrite forallb_forall in H. rewrite <- (N2Nat.id x). apply H. apply in_seq. lia.
Qed.

Lemma aes_sbox_check : forallb (fun i => N.eqb (nth i aes_SBox 0%N) (aes_sbox (N.of_nat i))) (seq 0 256) = true.
Proof. vm_compute. reflexivity. Qed.
Lemma aes_sbox_nth : forall x, (x < 256)%N -> nth (N.to_nat x) aes_SBox 0%N = aes_sbox x.
Proof.
  intros x Hx. apply N.eqb_eq. rewrite <- (N2Nat.id x) at 2.
  pose proof aes_sbox_check as H. rewrite forallb_forall in H. apply H. apply in_seq. lia.
Qed.
Lemma aes_SBox_bytes : Forall (fun x => (x < 256)%N) aes_SBox.
Proof.
  apply Forall_forall. intros x Hx.
  assert (H : forallb (fun x => N.ltb x 256) aes_SBox = true) by reflexivity.
  rewrite forallb_forall in H. apply N.ltb_lt. auto.
Qed.
Lemma aes_sbox_bound : forall x, (x < 256)%N -> (aes_sbox x < 256)%N.
Proof. intros x Hx. rewrite <- aes_sbox_nth by auto. apply nth_byte, aes_SBox_bytes. Qed.
Lemma aget_sbox : forall x, (x < 256)%N -> aget aes_SBox (N.to_nat x) = Ok (aes_sbox x).
Proof.
  intros x Hx. rewrite (aget_ok _ _ _ 0%N) by (change (length aes_SBox) with 256; lia).
  rewrite aes_sbox_nth by auto. reflexivity.
Qed.
Opaque aes_sbox.

Ltac xors := apply N.bits_inj; intros ?n; rewrite ?N.lxor_spec;
  repeat match goal with |- context [N.testbit ?a ?b] => destruct (N.testbit a b) end; reflexivity.

(** multiplication by x *)
Definition xt (a : N) : N := let a2 := (2 * a)%N in if N.testbit a2 8 then N.lxor a2 aes_poly else a2.
Definition xt_code (a : N) : N :=
  let a1 := uchar (N.shiftl a 1) in if N.eqb (N.land a 0x80) 0x80 then N.lxor a1 0x1b else a1.
Lemma xt_code_ok : forall a, (a < 256)%N -> xt_code a = xt a /\ (xt a < 256)%N.
Proof.
  intros a Ha.
  assert (H : forallb (fun i => N.eqb (xt_code (N.of_nat i)) (xt (N.of_nat i)) && N.ltb (xt (N.of_nat i)) 256) (seq 0 256) = true)
    by (vm_compute; reflexivity).
  pose proof (all_bytes (fun a => N.eqb (xt_code a) (xt a) && N.ltb (xt a) 256)%bool H a Ha) as R.
  cbv beta in R. apply andb_true_iff in R. destruct R as [R1 R2]. apply N.eqb_eq in R1. apply N.ltb_lt in R2. auto.
Qed.
Lemma land_1 : forall b, N.eqb (N.land b 1) 1 = N.odd b.
Proof.
  intros b. change 1%N with (N.ones 1) at 1. rewrite N.land_ones. change (2 ^ 1)%N with 2%N.
  rewrite <- N.bit0_mod, N.bit0_odd. destruct (N.odd b); reflexivity.
Qed.
Lemma gfmul_step : forall n a b, gfmul aes_poly (S n) a b =
  N.lxor (if N.odd b then a else 0%N) (gfmul aes_poly n (xt a) (N.div2 b)).
Proof. reflexivity. Qed.
Lemma gfmul_bound : forall n a b, (a < 256)%N -> (gfmul aes_poly n a b < 256)%N.
Proof.
  induction n as [|n IH]; intros a b Ha; [reflexivity|]. rewrite gfmul_step.
  apply xor_byte; [destruct (N.odd b); auto; lia|]. apply IH. apply xt_code_ok. auto.
Qed.
Lemma gmul_bound : forall a b, (a < 256)%N -> (gmul a b < 256)%N.
Proof. intros. apply gfmul_bound. auto. Qed.
Lemma gMul_ok : forall a b, (a < 256)%N -> gMul a b = Ok (gmul a b).
Proof.
  intros a b Ha. unfold gMul. apply wp_eq. apply wp_bind.
  apply wp_for_up with (I := fun i (st : N * N * N) => let '(p, a', b') := st in
    (a' < 256)%N /\ N.lxor p (gfmul aes_poly (8 - i) a' b') = gmul a b).
  - lia.
  - split; auto.
  - intros i [[p a'] b'] _ Hi [Ba E]. cbv zeta. apply wp_ok. fold (xt_code a').
    destruct (xt_code_ok a' Ba) as [Ex Bx].
    change (if N.eqb (N.land a' 128) 128 then N.lxor (uchar (N.shiftl a' 1)) 27 else uchar (N.shiftl a' 1)) with (xt_code a').
    rewrite Ex. split; auto. rewrite <- E. replace (8 - i) with (S (8 - S i)) by lia. rewrite gfmul_step.
    rewrite land_1. change (N.shiftr b' 1) with (N.div2 b'). rewrite <- N.lxor_assoc. f_equal.
    destruct (N.odd b'); [|rewrite N.lxor_0_r]; reflexivity.
  - intros [[p a'] b'] [_ E]. cbn [Nat.sub gfmul] in E. rewrite N.lxor_0_r in E. apply wp_ok. auto.
Qed.
Lemma aes_rCon_nth : forall k, 1 <= k -> k <= 10 -> nth k aes_rCon 0%N = rcon (k - 1) /\ (rcon (k - 1) < 256)%N.
Proof. intros k H1 H2. do 11 (destruct k as [|k]; [try lia; split; vm_compute; reflexivity|]). lia. Qed.
Opaque gmul.

(** ** States *)

Lemma length_state : forall f, length (state f) = 16.
Proof. intros. unfold state. rewrite map_length. apply seq_length. Qed.
Lemma length_ShiftRows : forall s, length (ShiftRows s) = 16.
Proof. intros. apply length_state. Qed.
Lemma nth_state : forall f k, k < 16 -> nth k (state f) 0%N = f (k mod 4) (k / 4).
Proof. intros f k Hk. unfold state. do 16 (destruct k as [|k]; [reflexivity|]). lia. Qed.
Lemma elt_state : forall f r c, r < 4 -> c < 4 -> elt (state f) r c = f r c.
Proof.
  intros f r c Hr Hc. unfold elt. rewrite nth_state by lia.
  assert (Hc' : c = 0 \/ c = 1 \/ c = 2 \/ c = 3) by lia. assert (Hr' : r = 0 \/ r = 1 \/ r = 2 \/ r = 3) by lia.
  destruct Hc' as [H|[H|[H|H]]], Hr' as [H'|[H'|[H'|H']]]; rewrite H, H'; reflexivity.
Qed.
Lemma state_ext : forall f g, (forall r c, r < 4 -> c < 4 -> f r c = g r c) -> state f = state g.
Proof.
  intros f g H. unfold state. apply map_ext_in. intros k Hk. apply in_seq in Hk. apply H.
  - apply Nat.mod_upper_bound. lia.
  - apply Nat.div_lt_upper_bound; lia.
Qed.
Lemma state_bytes : forall f, (forall r c, r < 4 -> c < 4 -> (f r c < 256)%N) -> bytes 16 (state f).
Proof.
  intros f H. split; [apply length_state|]. apply Forall_nth_byte. rewrite length_state. intros k Hk.
  rewrite nth_state by auto. apply H; [apply Nat.mod_upper_bound; lia|apply Nat.div_lt_upper_bound; lia].
Qed.
Lemma elt_bytes : forall s r c, bytes 16 s -> (elt s r c < 256)%N.
Proof. intros s r c Hs. apply nth_byte. apply Hs. Qed.
Lemma SubBytes_bytes : forall s, bytes 16 s -> bytes 16 (SubBytes s).
Proof. intros. apply state_bytes. intros. apply aes_sbox_bound, elt_bytes. auto. Qed.
Lemma ShiftRows_bytes : forall s, bytes 16 s -> bytes 16 (ShiftRows s).
Proof. intros. apply state_bytes. intros. apply elt_bytes. auto. Qed.
Lemma AddRoundKey_bytes : forall s k, bytes 16 s -> bytes 16 k -> bytes 16 (AddRoundKey s k).
Proof. intros. apply state_bytes. intros. apply xor_byte; apply elt_bytes; auto. Qed.
Lemma MixColumns_bytes : forall s, bytes 16 s -> bytes 16 (MixColumns s).
Proof.
  intros. apply state_bytes. intros. unfold xor4.
  repeat apply xor_byte; auto using elt_bytes; apply gmul_bound; lia.
Qed.
Lemma mod4 : forall x, x mod 4 < 4.
Proof. intros. apply Nat.mod_upper_bound. lia. Qed.
Lemma ShiftRows_SubBytes : forall s, ShiftRows (SubBytes s) = SubBytes (ShiftRows s).
Proof.
  intros. apply state_ext. intros. unfold SubBytes, ShiftRows. rewrite !elt_state by auto using mod4. reflexivity.
Qed.
Lemma ShiftRows_AddRoundKey : forall s k, ShiftRows (AddRoundKey s k) = AddRoundKey (ShiftRows s) (ShiftRows k).
Proof.
  intros. apply state_ext. intros. unfold AddRoundKey, ShiftRows. rewrite !elt_state by auto using mod4. reflexivity.
Qed.

(** The form of the rounds in the code: the state before AddRoundKey number i *)
Fixpoint Pst (rk : nat -> list N) (n : nat) (x : list N) : list N :=
  match n with
  | O => x
  | S i => MixColumns (SubBytes (AddRoundKey (ShiftRows (Pst rk i x)) (ShiftRows (rk i))))
  end.
Lemma aes_rounds_P : forall rk n x, aes_rounds rk n x = AddRoundKey (Pst rk n x) (rk n).
Proof.
  intros rk n x. induction n as [|n IH]; [reflexivity|]. cbn [aes_rounds Pst].
  rewrite IH, ShiftRows_SubBytes, ShiftRows_AddRoundKey. reflexivity.
Qed.
Lemma aes_cipher_P : forall rk x, aes_cipher rk x =
  AddRoundKey (SubBytes (AddRoundKey (ShiftRows (Pst rk 9 x)) (ShiftRows (rk 9)))) (rk 10).
Proof.
  intros. unfold aes_cipher. rewrite aes_rounds_P, ShiftRows_SubBytes, ShiftRows_AddRoundKey. reflexivity.
Qed.
Lemma Pst_bytes : forall rk n x, (forall i, i < n -> bytes 16 (rk i)) -> bytes 16 x -> bytes 16 (Pst rk n x).
Proof.
  intros rk n x Hk Hx. induction n as [|n IH]; auto. cbn [Pst].
  apply MixColumns_bytes, SubBytes_bytes, AddRoundKey_bytes; apply ShiftRows_bytes; auto.
Qed.
Lemma Pst_ext : forall rk rk' n x, (forall i, i < n -> rk i = rk' i) -> Pst rk n x = Pst rk' n x.
Proof. intros rk rk' n x H. induction n as [|n IH]; auto. cbn [Pst]. rewrite IH, H; auto. Qed.
Lemma aes_cipher_ext : forall rk rk' x, (forall i, i < 11 -> rk i = rk' i) -> aes_cipher rk x = aes_cipher rk' x.
Proof.
  intros rk rk' x H. rewrite !aes_cipher_P. rewrite (Pst_ext rk rk'), !H by (auto; lia). reflexivity.
Qed.
Lemma aes_cipher_bytes : forall rk x, (forall i, i < 11 -> bytes 16 (rk i)) -> bytes 16 x -> bytes 16 (aes_cipher rk x).
Proof.
  intros rk x Hk Hx. rewrite aes_cipher_P.
  apply AddRoundKey_bytes, Hk; auto. apply SubBytes_bytes, AddRoundKey_bytes; apply ShiftRows_bytes; auto.
  apply Pst_bytes; auto.
Qed.

(** ** The functions of the code *)

(** a loop that writes l[p], ..., l[p + n - 1] one after the other *)
Lemma fill_wp : forall (f : nat -> N) n p body l, p + n <= length l ->
  (forall i cur, i < n -> length cur = length l ->
     (forall j, j < p \/ p + i <= j -> nth j cur 0%N = nth j l 0%N) ->
     (forall j, j < i -> nth (p + j) cur 0%N = f j) ->
     wp (body i cur) (fun l' => l' = upd cur (p + i) (f i))) ->
  wp (for_up 0 n body l) (fun l' => written l l' p (map f (seq 0 n))).
Proof.
  intros f n p body l Hp Hb.
  apply wp_for_up with (I := fun i cur => length cur = length l /\
    (forall j, j < p \/ p + i <= j -> nth j cur 0%N = nth j l 0%N) /\
    (forall j, j < i -> nth (p + j) cur 0%N = f j)).
  - lia.
  - split; auto. split; auto. intros; lia.
  - intros i cur _ Hi (L & H1 & H2). eapply wp_mono; [apply Hb; auto|]. intros l' ->.
    rewrite length_upd. split; auto. split; intros j Hj; rewrite nth_upd by lia.
    + destruct (Nat.eqb_spec j (p + i)); [lia|]. apply H1. lia.
    + destruct (Nat.eqb_spec (p + j) (p + i)); [f_equal; lia|]. apply H2. lia.
  - intros l' (L & H1 & H2). split; auto. intros j. rewrite map_length, seq_length.
    destruct (Nat.leb_spec p j), (Nat.ltb_spec j (p + n)); cbn [andb]; try (apply H1; lia).
    replace j with (p + (j - p)) at 1 by lia. rewrite H2 by lia.
    rewrite (nth_indep _ 0%N (f 0)) by (rewrite map_length, seq_length; lia).
    rewrite map_nth. rewrite seq_nth by lia. reflexivity.
Qed.
Lemma written_all : forall l l' r, written l l' 0 r -> length r = length l -> l' = r.
Proof.
  intros l l' r [L H] HL. apply list_ext with (d := 0%N); [congruence|]. intros i Hi. rewrite H.
  destruct (Nat.ltb_spec i (0 + length r)); [|lia]. cbn [Nat.leb andb]. rewrite Nat.sub_0_r. reflexivity.
Qed.
Lemma written_slice : forall l l' p r n, written l l' p r -> length r = n -> p + n <= length l -> slice l' p n = r.
Proof.
  intros l l' p r n [L H] Hn Hp. apply slice_eq; [congruence|auto|]. intros i Hi. rewrite H.
  destruct (Nat.leb_spec p (p + i)), (Nat.ltb_spec (p + i) (p + length r)); try lia. cbn [andb]. f_equal. lia.
Qed.
Lemma written_slice_other : forall l l' p r q n, written l l' p r -> (q + n <= p \/ p + length r <= q) ->
  q + n <= length l -> slice l' q n = slice l q n.
Proof.
  intros l l' p r q n [L H] Hq Hl. apply slice_eq; [congruence|apply length_slice; auto|]. intros i Hi.
  rewrite H, nth_slice by auto. destruct (Nat.leb_spec p (q + i)), (Nat.ltb_spec (q + i) (p + length r)); cbn [andb]; auto; lia.
Qed.
Lemma written_bytes : forall l l' p r, written l l' p r -> Forall (fun x => (x < 256)%N) l ->
  Forall (fun x => (x < 256)%N) r -> Forall (fun x => (x < 256)%N) l'.
Proof.
  intros l l' p r [L H] Hl Hr. apply Forall_nth_byte. intros i Hi. rewrite H.
  destruct (Nat.leb p i && Nat.ltb i (p + length r))%bool; apply nth_byte; auto.
Qed.

Lemma put16_wp : forall s p out, length out = 16 -> p + 16 <= length s ->
  wp (put16 s p out) (fun s' => written s s' p out).
Proof.
  intros s p out Ho Hp. unfold put16.
  eapply wp_mono; [apply fill_wp with (f := fun i => nth i out 0%N) (p := p); auto|].
  - intros i cur Hi L _ _. apply wp_bind. apply wp_aget with (d := 0%N); [lia|]. apply wp_aset; [lia|]. reflexivity.
  - intros s' H. replace out with (map (fun i => nth i out 0%N) (seq 0 16)); [exact H|].
    apply list_ext with (d := 0%N); [rewrite map_length, seq_length; auto|].
    rewrite map_length, seq_length. intros i Hi.
    rewrite (nth_indep _ 0%N (nth 0 out 0%N)) by (rewrite map_length, seq_length; auto).
    rewrite (map_nth (fun i => nth i out 0%N)). rewrite seq_nth by auto. reflexivity.
Qed.
(** l[i] for i < 16 written to a list of length 16 *)
Lemma fill16 : forall (f : nat -> N) body l g, length l = 16 ->
  (forall i cur, i < 16 -> length cur = length l ->
     (forall j, j < 0 \/ 0 + i <= j -> nth j cur 0%N = nth j l 0%N) ->
     (forall j, j < i -> nth (0 + j) cur 0%N = f j) ->
     wp (body i cur) (fun l' => l' = upd cur (0 + i) (f i))) ->
  (forall i, i < 16 -> f i = g (i mod 4) (i / 4)) ->
  for_up 0 16 body l = Ok (state g).
Proof.
  intros f body l g HL Hb Hg. apply wp_eq. eapply wp_mono; [apply fill_wp with (f := f) (p := 0); auto; lia|].
  intros l' W. apply written_all in W; [|rewrite map_length, seq_length; auto].
  rewrite W. unfold state. apply map_ext_in. intros i Hi. apply in_seq in Hi. apply Hg. lia.
Qed.

Lemma shiftTab_nth : forall k, k < 16 -> nth k shiftTab 0 = k mod 4 + 4 * ((k / 4 + k mod 4) mod 4) /\ nth k shiftTab 0 < 16.
Proof. intros k Hk. do 16 (destruct k as [|k]; [split; [reflexivity|cbn; lia]|]). lia. Qed.
Lemma shiftRows_wp : forall s p, p + 16 <= length s ->
  wp (shiftRows s p) (fun s' => written s s' p (ShiftRows (slice s p 16))).
Proof.
  intros s p Hp. unfold shiftRows.
  rewrite (fill16 (fun i => nth (p + nth i shiftTab 0) s 0%N) _ (repeat 0%N 16)
    (fun r c => elt (slice s p 16) r ((c + r) mod 4)) eq_refl).
  - cbn [bind]. apply put16_wp; auto.
  - intros i cur Hi L _ _. rewrite repeat_length in L. destruct (shiftTab_nth i Hi) as [_ B].
    apply wp_bind. apply wp_aget with (d := 0); [exact Hi|]. apply wp_bind. apply wp_aget with (d := 0%N); [lia|].
    apply wp_aset; [lia|]. reflexivity.
  - intros i Hi. destruct (shiftTab_nth i Hi) as [E B]. unfold elt. rewrite nth_slice by lia. rewrite E. reflexivity.
Qed.
Lemma shiftRows_ok : forall s, length s = 16 -> shiftRows s 0 = Ok (ShiftRows s).
Proof.
  intros s Hs. apply wp_eq. eapply wp_mono; [apply shiftRows_wp; lia|]. intros s' W.
  apply written_all in W; [|rewrite Hs; apply length_state]. rewrite W. f_equal.
  unfold slice. cbn [skipn]. apply firstn_all2. lia.
Qed.
Lemma elt_mod : forall s i, i < 16 -> elt s (i mod 4) (i / 4) = nth i s 0%N.
Proof. intros s i Hi. unfold elt. f_equal. pose proof (Nat.div_mod i 4). lia. Qed.
Lemma subBytes_ok : forall s, bytes 16 s -> subBytes s = Ok (SubBytes s).
Proof.
  intros s Hs. apply (fill16 (fun i => aes_sbox (nth i s 0%N))); [apply Hs| |].
  - intros i cur Hi L H _. rewrite (proj1 Hs) in L. apply wp_bind. apply wp_aget with (d := 0%N); [lia|].
    rewrite H by lia. rewrite aget_sbox by (apply nth_byte; apply Hs). cbn [bind]. apply wp_aset; [lia|]. reflexivity.
  - intros i Hi. rewrite elt_mod by auto. reflexivity.
Qed.
Lemma addRoundKey_ok : forall s k p, length s = 16 -> p + 16 <= length k ->
  addRoundKey s k p = Ok (AddRoundKey s (slice k p 16)).
Proof.
  intros s k p Hs Hk. apply (fill16 (fun i => N.lxor (nth i s 0%N) (nth (p + i) k 0%N))); [apply Hs| |].
  - intros i cur Hi L H _. apply wp_bind. apply wp_aget with (d := 0%N); [lia|].
    rewrite H by lia. apply wp_bind. apply wp_aget with (d := 0%N); [lia|]. apply wp_aset; [lia|]. reflexivity.
  - intros i Hi. rewrite !elt_mod by auto. rewrite nth_slice by auto. reflexivity.
Qed.

(** loops over the four columns that write all bytes of the column *)
Lemma columns_ok : forall (g : nat -> nat -> N) body,
  (forall j o, j < 4 -> length o = 16 -> wp (body j o) (fun o' => length o' = 16 /\
     forall k, k < 16 -> nth k o' 0%N = if Nat.eqb (k / 4) j then g (k mod 4) j else nth k o 0%N)) ->
  forall o, length o = 16 -> for_up 0 4 body o = Ok (state g).
Proof.
  intros g body Hb o Ho. apply wp_eq.
  apply wp_for_up with (I := fun j o' => length o' = 16 /\ forall k, k < 16 -> k / 4 < j -> nth k o' 0%N = g (k mod 4) (k / 4)).
  - lia.
  - split; auto. intros; lia.
  - intros j o' _ Hj [L H]. eapply wp_mono; [apply Hb; auto|]. intros o'' [L' H']. split; auto.
    intros k Hk Hkj. rewrite H' by auto. destruct (Nat.eqb_spec (k / 4) j) as [->|]; auto. apply H; auto. lia.
  - intros o' [L H]. apply list_ext with (d := 0%N); [rewrite length_state; auto|].
    rewrite L. intros k Hk. rewrite nth_state by auto. apply H; auto. apply Nat.div_lt_upper_bound; lia.
Qed.
Lemma column_index : forall k j, k < 16 -> j < 4 ->
  (k / 4 = j <-> k = 4 * j \/ k = 4 * j + 1 \/ k = 4 * j + 2 \/ k = 4 * j + 3).
Proof.
  intros k j Hk Hj. pose proof (Nat.div_mod k 4). pose proof (mod4 k). split; intros.
  - lia.
  - symmetry. apply Nat.div_unique with (r := k - 4 * j); lia.
Qed.
Lemma col_mod : forall j q, q < 4 -> (4 * j + q) mod 4 = q /\ (4 * j + q) / 4 = j.
Proof.
  intros j q Hq. split.
  - symmetry. apply Nat.mod_unique with (q := j); lia.
  - symmetry. apply Nat.div_unique with (r := q); lia.
Qed.
(** writing the four bytes of a column *)
Lemma column_write : forall (g : nat -> nat -> N) j o v0 v1 v2 v3, j < 4 -> length o = 16 ->
  v0 = g 0 j -> v1 = g 1 j -> v2 = g 2 j -> v3 = g 3 j ->
  let o' := upd (upd (upd (upd o (4 * j) v0) (4 * j + 1) v1) (4 * j + 2) v2) (4 * j + 3) v3 in
  length o' = 16 /\ forall k, k < 16 -> nth k o' 0%N = if Nat.eqb (k / 4) j then g (k mod 4) j else nth k o 0%N.
Proof.
  intros g j o v0 v1 v2 v3 Hj Ho E0 E1 E2 E3 o'. unfold o'. rewrite !length_upd. split; auto.
  intros k Hk. rewrite !nth_upd by (rewrite ?length_upd; lia).
  pose proof (column_index k j Hk Hj) as HC.
  destruct (col_mod j 0 ltac:(lia)) as [M0 _], (col_mod j 1 ltac:(lia)) as [M1 _],
    (col_mod j 2 ltac:(lia)) as [M2 _], (col_mod j 3 ltac:(lia)) as [M3 _]. rewrite Nat.add_0_r in M0.
  destruct (Nat.eqb_spec (k / 4) j) as [Hc|Hc].
  - apply HC in Hc. destruct Hc as [ -> |[ -> |[ -> | -> ]]].
    + destruct (Nat.eqb_spec (4 * j) (4 * j + 3)), (Nat.eqb_spec (4 * j) (4 * j + 2)),
        (Nat.eqb_spec (4 * j) (4 * j + 1)), (Nat.eqb_spec (4 * j) (4 * j)); try lia. rewrite M0. auto.
    + destruct (Nat.eqb_spec (4 * j + 1) (4 * j + 3)), (Nat.eqb_spec (4 * j + 1) (4 * j + 2)),
        (Nat.eqb_spec (4 * j + 1) (4 * j + 1)); try lia. rewrite M1. auto.
    + destruct (Nat.eqb_spec (4 * j + 2) (4 * j + 3)), (Nat.eqb_spec (4 * j + 2) (4 * j + 2)); try lia. rewrite M2. auto.
    + destruct (Nat.eqb_spec (4 * j + 3) (4 * j + 3)); try lia. rewrite M3. auto.
  - destruct (Nat.eqb_spec k (4 * j + 3)), (Nat.eqb_spec k (4 * j + 2)), (Nat.eqb_spec k (4 * j + 1)),
      (Nat.eqb_spec k (4 * j)); auto; exfalso; apply Hc, HC; auto.
Qed.
Lemma mixColumns_ok : forall s, bytes 16 s -> mixColumns s = Ok (MixColumns s).
Proof.
  intros s Hs. unfold mixColumns. pose proof (proj1 Hs) as L.
  rewrite (columns_ok (fun r c => xor4 (gmul 2 (elt s r c)) (gmul 3 (elt s ((r + 1) mod 4) c))
                         (elt s ((r + 2) mod 4) c) (elt s ((r + 3) mod 4) c))); auto.
  - cbn [bind]. apply wp_eq. eapply wp_mono; [apply put16_wp; [apply length_state|lia]|].
    intros s' W. apply written_all in W; auto.
  - intros j o Hj Ho. rewrite !(aget_ok _ s _ 0%N) by lia. cbn [bind].
    rewrite !gMul_ok by lia. cbn [bind].
    do 3 (apply wp_bind; apply wp_aset; [rewrite ?length_upd; lia|]). apply wp_aset; [rewrite ?length_upd; lia|].
    apply (column_write (fun r c => xor4 (gmul 2 (elt s r c)) (gmul 3 (elt s ((r + 1) mod 4) c))
             (elt s ((r + 2) mod 4) c) (elt s ((r + 3) mod 4) c))); auto; unfold elt, xor4; cbn [Nat.add]; change (1 mod 4) with 1; change (2 mod 4) with 2;
      change (3 mod 4) with 3; change (4 mod 4) with 0; change (5 mod 4) with 1; change (6 mod 4) with 2; cbn [Nat.add];
      rewrite ?(Nat.add_comm (4 * j)); cbn [Nat.add]; xors.
Qed.

(** *** Key expansion *)

Lemma nth_last : forall (l : list (list N)) d, last l d = nth (length l - 1) l d.
Proof.
  induction l as [|a l IH]; intros d; [reflexivity|]. destruct l as [|b l]; [reflexivity|].
  change (last (a :: b :: l) d) with (last (b :: l) d). rewrite IH. cbn [length]. rewrite Nat.sub_succ, Nat.sub_0_r.
  replace (S (S (length l)) - 1) with (S (length l)) by lia. reflexivity.
Qed.
Definition key_step (key : list N) (n : nat) (w : list (list N)) : list N :=
  let i := n + 4 in
  let t := last w [] in
  let t := if Nat.eqb (i mod 4) 0 then xor_list (SubWord (RotWord t)) [rcon (i / 4 - 1); 0; 0; 0]%N else t in
  xor_list (nth (i - 4) w []) t.
Lemma key_words_S : forall key n, key_words key (S n) = key_words key n ++ [key_step key n (key_words key n)].
Proof. reflexivity. Qed.
Lemma length_key_words : forall key n, length (key_words key n) = n + 4.
Proof. intros key n. induction n as [|n IH]; [reflexivity|]. rewrite key_words_S, app_length, IH. cbn [length]. lia. Qed.
Lemma key_words_le : forall key n m k, n <= m -> k < n + 4 -> nth k (key_words key m) [] = nth k (key_words key n) [].
Proof.
  intros key n m k Hm Hk. induction Hm as [|m Hm IH]; auto.
  rewrite key_words_S, app_nth1 by (rewrite length_key_words; lia). auto.
Qed.
Definition KW (key : list N) (k : nat) : list N := nth k (key_words key 40) [].
Lemma KW_0 : forall key i, i < 4 -> KW key i = key_word key i.
Proof. intros key i Hi. unfold KW. rewrite (key_words_le key 0) by lia. do 4 (destruct i as [|i]; [reflexivity|]). lia. Qed.
Lemma KW_S : forall key i, 4 <= i -> i < 44 -> KW key i =
  xor_list (KW key (i - 4)) (let t := KW key (i - 1) in
    if Nat.eqb (i mod 4) 0 then xor_list (SubWord (RotWord t)) [rcon (i / 4 - 1); 0; 0; 0]%N else t).
Proof.
  intros key i H4 H44. unfold KW. rewrite (key_words_le key (S (i - 4))) by lia. rewrite key_words_S.
  rewrite app_nth2; rewrite length_key_words; [|lia]. replace (i - (i - 4 + 4)) with 0 by lia. cbn [nth].
  unfold key_step. cbv zeta. rewrite nth_last, length_key_words. replace (i - 4 + 4) with i by lia.
  rewrite !(key_words_le key (i - 4) 40) by lia. reflexivity.
Qed.
Lemma key_word_nth : forall key i q, q < 4 -> nth q (key_word key i) 0%N = nth (4 * i + q) key 0%N.
Proof. intros key i q Hq. unfold key_word. do 4 (destruct q as [|q]; [reflexivity|]). lia. Qed.
Lemma list4 : forall l : list N, length l = 4 -> l = [nth 0 l 0; nth 1 l 0; nth 2 l 0; nth 3 l 0]%N.
Proof. intros l H. do 4 (destruct l as [|? l]; [discriminate H|]). destruct l; [reflexivity|discriminate H]. Qed.
Lemma step_length : forall (b : bool) (a t : list N) r, length a = 4 -> length t = 4 ->
  length (xor_list a (if b then xor_list (SubWord (RotWord t)) [r; 0; 0; 0]%N else t)) = 4.
Proof.
  intros b a t r Ha Ht. do 4 (destruct a as [|? a]; [discriminate Ha|]). destruct a; [|discriminate Ha].
  do 4 (destruct t as [|? t]; [discriminate Ht|]). destruct t; [|discriminate Ht]. destruct b; reflexivity.
Qed.
Lemma KW_length : forall key i, i < 44 -> length (KW key i) = 4.
Proof.
  intros key i. induction i as [i IH] using lt_wf_ind. intros Hi. destruct (Nat.lt_ge_cases i 4) as [H|H].
  - rewrite KW_0 by auto. reflexivity.
  - rewrite KW_S by auto. cbv zeta. apply step_length; apply IH; lia.
Qed.
Lemma aes_round_key_KW : forall key i, aes_round_key key i =
  concat [KW key (4 * i + 0); KW key (4 * i + 1); KW key (4 * i + 2); KW key (4 * i + 3)].
Proof.
  intros. unfold aes_round_key, KW. generalize (key_words key 40). intros w. reflexivity.
Qed.
Opaque KW.
Definition ekb (key : list N) (k : nat) : N := nth (k mod 4) (KW key (k / 4)) 0%N.
Lemma ekb_q : forall key i q, q < 4 -> ekb key (4 * i + q) = nth q (KW key i) 0%N.
Proof. intros key i q Hq. unfold ekb. destruct (col_mod i q Hq) as [-> ->]. reflexivity. Qed.
Definition ekb_step (key : list N) (i q : nat) : N :=
  let t q := ekb key (4 * (i - 1) + q) in
  nth q (if Nat.eqb (i mod 4) 0
         then [N.lxor (aes_sbox (t 1)) (rcon (i / 4 - 1)); aes_sbox (t 2); aes_sbox (t 3); aes_sbox (t 0)]
         else [t 0; t 1; t 2; t 3]) 0%N.
Lemma step_nth : forall (b : bool) (a t : list N) r q, length a = 4 -> length t = 4 -> q < 4 ->
  nth q (xor_list a (if b then xor_list (SubWord (RotWord t)) [r; 0; 0; 0]%N else t)) 0%N =
  N.lxor (nth q a 0%N) (nth q (if b
    then [N.lxor (aes_sbox (nth 1 t 0)) r; aes_sbox (nth 2 t 0); aes_sbox (nth 3 t 0); aes_sbox (nth 0 t 0)]
    else [nth 0 t 0; nth 1 t 0; nth 2 t 0; nth 3 t 0])%N 0%N).
Proof.
  intros b a t r q Ha Ht Hq. do 4 (destruct a as [|? a]; [discriminate Ha|]). destruct a; [|discriminate Ha].
  do 4 (destruct t as [|? t]; [discriminate Ht|]). destruct t; [|discriminate Ht].
  destruct b; do 4 (destruct q as [|q]; [cbn; rewrite ?N.lxor_0_r; reflexivity|]); lia.
Qed.
Lemma ekb_S : forall key i q, 4 <= i -> i < 44 -> q < 4 -> ekb key (4 * i + q) =
  N.lxor (ekb key (4 * (i - 4) + q)) (ekb_step key i q).
Proof.
  intros key i q H4 H44 Hq. unfold ekb_step. cbv zeta. rewrite !ekb_q by lia. rewrite KW_S by auto. cbv zeta.
  apply step_nth; auto; apply KW_length; lia.
Qed.
Lemma ekb_bytes : forall key k, bytes 16 key -> k < 176 -> (ekb key k < 256)%N.
Proof.
  intros key k Hk. induction k as [k IH] using lt_wf_ind. intros Hb.
  pose proof (Nat.div_mod k 4 ltac:(lia)) as D. pose proof (mod4 k) as M. remember (k / 4) as i. remember (k mod 4) as q.
  rewrite D. destruct (Nat.lt_ge_cases i 4) as [H|H].
  - rewrite ekb_q, KW_0, key_word_nth by auto. apply nth_byte. apply Hk.
  - rewrite ekb_S by lia. apply xor_byte; [apply IH; lia|]. unfold ekb_step. cbv zeta.
    assert (T : forall q, q < 4 -> (ekb key (4 * (i - 1) + q) < 256)%N) by (intros; apply IH; lia).
    apply nth_byte.
    destruct (aes_rCon_nth (i / 4)) as [_ R].
    { apply Nat.div_le_lower_bound; lia. } { apply Nat.lt_succ_r. apply Nat.div_lt_upper_bound; lia. }
    destruct (Nat.eqb (i mod 4) 0); repeat apply Forall_cons; try apply Forall_nil; try apply xor_byte;
      try apply aes_sbox_bound; try (apply T; lia). exact R.
Qed.
Definition expanded (key : list N) : list N := map (ekb key) (seq 0 176).
Lemma expandKey_ok : forall key ek, bytes 16 key -> length ek = 176 ->
  expandKey key ek = Ok (expanded key).
Proof.
  intros key ek Hk Hl. unfold expandKey, expanded. apply wp_eq. apply wp_bind.
  apply wp_for_up with (I := fun i ek => length ek = 176 /\ forall k, k < 4 * i -> nth k ek 0%N = ekb key k); [lia| | |].
  - split; auto. intros; lia.
  - intros i ek1 _ Hi [L1 H1].
    eapply wp_mono; [apply fill_wp with (f := fun q => nth (4 * i + q) key 0%N) (p := 4 * i); [lia|]|].
    + intros q cur Hq Lc _ _. apply wp_bind. apply wp_aget with (d := 0%N); [rewrite (proj1 Hk); lia|].
      apply wp_aset; [lia|]. reflexivity.
    + intros ek2 [L2 W]. split; [lia|]. intros k Hk4. rewrite W. rewrite map_length, seq_length.
      destruct (Nat.leb_spec (4 * i) k), (Nat.ltb_spec k (4 * i + 4)); try lia; cbn [andb]; [|apply H1; lia].
      replace k with (4 * i + (k - 4 * i)) at 2 by lia. rewrite ekb_q, KW_0, key_word_nth by lia.
      assert (E : k - 4 * i = 0 \/ k - 4 * i = 1 \/ k - 4 * i = 2 \/ k - 4 * i = 3) by lia.
      destruct E as [ -> |[ -> |[ -> | -> ]]]; reflexivity.
  - intros ek1 [L1 H1].
    apply wp_for_up with (I := fun i ek => length ek = 176 /\ forall k, k < 4 * i -> nth k ek 0%N = ekb key k); [lia| | |].
    + auto.
    + clear ek1 L1 H1. intros i ek1 H4 H44 [L1 H1].
      assert (Hi1 : 1 <= i / 4) by (apply Nat.div_le_lower_bound; lia).
      assert (Hi2 : i / 4 <= 10) by (apply Nat.lt_succ_r, Nat.div_lt_upper_bound; lia).
      destruct (aes_rCon_nth (i / 4) Hi1 Hi2) as [R _].
      rewrite !(aget_ok _ ek1 _ 0%N) by lia. cbn [bind]. rewrite !H1 by lia.
      assert (B : forall k, k < 176 -> (ekb key k < 256)%N) by (intros; apply ekb_bytes; auto).
      rewrite !aget_sbox by (apply B; lia). cbn [bind].
      rewrite (aget_ok _ aes_rCon _ 0%N) by (change (length aes_rCon) with 11; lia). rewrite R. cbn [bind].
      match goal with |- context [bind ?c _] => assert (E : c = Ok (map (ekb_step key i) (seq 0 4))) end.
      { cbn [map seq]. unfold ekb_step. cbv beta zeta. rewrite !Nat.add_0_r.
        generalize (ekb key (4 * (i - 1))), (ekb key (4 * (i - 1) + 1)), (ekb key (4 * (i - 1) + 2)), (ekb key (4 * (i - 1) + 3)).
        intros t0 t1 t2 t3. generalize (rcon (i / 4 - 1)). intros r. destruct (Nat.eqb (i mod 4) 0); reflexivity. }
      rewrite E. cbn [bind]. clear E.
      eapply wp_mono; [apply fill_wp with (f := fun q => ekb key (4 * i + q)) (p := 4 * i); [lia|]|].
      * intros q cur Hq Lc F _. apply wp_bind. apply wp_aget with (d := 0%N); [lia|]. rewrite F by lia. rewrite H1 by lia.
        apply wp_bind. apply wp_aget with (d := 0%N); [rewrite map_length, seq_length; lia|]. apply wp_aset; [lia|].
        rewrite (ekb_S key i q) by lia. f_equal. f_equal. do 4 (destruct q as [|q]; [reflexivity|]). lia.
      * intros ek2 [L2 W]. split; [lia|]. intros k Hk4. rewrite W. rewrite map_length, seq_length.
        destruct (Nat.leb_spec (4 * i) k), (Nat.ltb_spec k (4 * i + 4)); try lia; cbn [andb]; [|apply H1; lia].
        rewrite (nth_indep _ 0%N (ekb key (4 * i + 0))) by (rewrite map_length, seq_length; lia).
        rewrite (map_nth (fun q => ekb key (4 * i + q))). rewrite seq_nth by lia. f_equal. lia.
    + intros ek2 [L2 H2]. apply list_ext with (d := 0%N); [rewrite map_length, seq_length; auto|].
      intros k Hk2. rewrite L2 in Hk2. rewrite H2 by lia. rewrite (nth_indep _ 0%N (ekb key 0)) by (rewrite map_length, seq_length; lia).
      rewrite map_nth, seq_nth by lia. reflexivity.
Qed.
Lemma expanded_bytes : forall key, bytes 16 key -> bytes 176 (expanded key).
Proof.
  intros key Hk. unfold expanded. split; [rewrite map_length; apply seq_length|]. apply Forall_forall. intros x Hx.
  apply in_map_iff in Hx. destruct Hx as (k & <- & Hx). apply in_seq in Hx. apply ekb_bytes; auto. lia.
Qed.
Lemma nth_expanded : forall key k, k < 176 -> nth k (expanded key) 0%N = ekb key k.
Proof.
  intros key k Hk. unfold expanded. rewrite (nth_indep _ 0%N (ekb key 0)) by (rewrite map_length, seq_length; lia).
  rewrite map_nth, seq_nth by lia. reflexivity.
Qed.
Lemma concat4 : forall a b c d : list N, length a = 4 -> length b = 4 -> length c = 4 -> length d = 4 ->
  let l := concat [a; b; c; d] in
  length l = 16 /\ forall j, j < 16 -> nth (j mod 4) (nth (j / 4) [a; b; c; d] []) 0%N = nth j l 0%N.
Proof.
  intros a b c d Ha Hb Hc Hd.
  do 4 (destruct a as [|? a]; [discriminate Ha|]). destruct a; [|discriminate Ha].
  do 4 (destruct b as [|? b]; [discriminate Hb|]). destruct b; [|discriminate Hb].
  do 4 (destruct c as [|? c]; [discriminate Hc|]). destruct c; [|discriminate Hc].
  do 4 (destruct d as [|? d]; [discriminate Hd|]). destruct d; [|discriminate Hd].
  split; [reflexivity|]. intros j Hj. do 16 (destruct j as [|j]; [reflexivity|]). lia.
Qed.
Lemma expanded_slice : forall key i, i < 11 -> slice (expanded key) (16 * i) 16 = aes_round_key key i.
Proof.
  intros key i Hi. rewrite aes_round_key_KW.
  destruct (concat4 (KW key (4 * i + 0)) (KW key (4 * i + 1)) (KW key (4 * i + 2)) (KW key (4 * i + 3))) as [L H];
    try (apply KW_length; lia).
  apply slice_eq; [unfold expanded; rewrite map_length, seq_length; lia|exact L|].
  intros j Hj. rewrite nth_expanded by lia. rewrite <- H by auto.
  pose proof (Nat.div_mod j 4 ltac:(lia)) as D. pose proof (mod4 j) as M.
  assert (J : j / 4 < 4) by (apply Nat.div_lt_upper_bound; lia). remember (j / 4) as c. remember (j mod 4) as r.
  replace (16 * i + j) with (4 * (4 * i + c) + r) by lia. rewrite ekb_q by auto. f_equal.
  clear - J. do 4 (destruct c as [|c]; [reflexivity|]). lia.
Qed.
Lemma aes_round_key_bytes : forall key i, bytes 16 key -> i < 11 -> bytes 16 (aes_round_key key i).
Proof.
  intros key i Hk Hi. rewrite <- expanded_slice by auto. pose proof (expanded_bytes key Hk) as [L B].
  apply bytes_slice; auto. rewrite L. lia.
Qed.

(** *** The rounds: round key i is replaced by its shifted form when it is used *)
Definition rks (ek : list N) (i : nat) : list N := slice ek (16 * i) 16.
Definition shifted (n : nat) (ek0 ek : list N) : Prop :=
  length ek = length ek0 /\
  (forall i, i < n -> rks ek i = ShiftRows (rks ek0 i)) /\ (forall i, n <= i -> i < 11 -> rks ek i = rks ek0 i).
Lemma shift_next : forall ek0 ek n, length ek0 = 176 -> n < 11 -> shifted n ek0 ek ->
  wp (shiftRows ek (16 * n)) (fun ek' => shifted (S n) ek0 ek').
Proof.
  intros ek0 ek n L0 Hn (L & H1 & H2). eapply wp_mono; [apply shiftRows_wp; lia|]. intros ek' W.
  split; [rewrite (proj1 W); auto|].
  assert (O : forall i, i <> n -> i < 11 -> rks ek' i = rks ek i).
  { intros i Hi Hi'. unfold rks. eapply written_slice_other; [exact W| |lia]. rewrite length_ShiftRows. lia. }
  split; intros i Hi.
  - destruct (Nat.eq_dec i n) as [->|Hne].
    + unfold rks at 1. erewrite written_slice; [|exact W|apply length_state|lia]. fold (rks ek n). rewrite H2 by lia. reflexivity.
    + rewrite O by lia. apply H1. lia.
  - intros Hi'. rewrite O by lia. apply H2; lia.
Qed.
Lemma rks_bytes : forall ek i, bytes 176 ek -> i < 11 -> bytes 16 (rks ek i).
Proof. intros ek i [L B] Hi. apply bytes_slice; auto. rewrite L. lia. Qed.
Lemma copy_wp : forall a o n, n <= length a -> n <= length o ->
  wp (for_up 0 n (fun i o => x <- aget a i ;; aset o i x) o) (fun o' => written o o' 0 (firstn n a)).
Proof.
  intros a o n Ha Ho. eapply wp_mono; [apply fill_wp with (f := fun i => nth i a 0%N) (p := 0); [lia|]|].
  - intros i cur Hi L _ _. apply wp_bind. apply wp_aget with (d := 0%N); [lia|]. apply wp_aset; [lia|]. reflexivity.
  - intros o' H. replace (firstn n a) with (map (fun i => nth i a 0%N) (seq 0 n)); [exact H|].
    apply list_ext with (d := 0%N); [rewrite map_length, seq_length, firstn_length; lia|].
    rewrite map_length, seq_length. intros i Hi.
    rewrite (nth_indep _ 0%N (nth 0 a 0%N)) by (rewrite map_length, seq_length; auto).
    rewrite (map_nth (fun i => nth i a 0%N)). rewrite seq_nth by auto.
    rewrite <- (firstn_skipn n a) at 1. rewrite app_nth1; [reflexivity|]. rewrite firstn_length. cbn [Nat.add]. lia.
Qed.
Opaque expanded.

Lemma zero_bytes : bytes 16 (repeat 0%N 16).
Proof. split; [reflexivity|]. repeat constructor. Qed.
Lemma aes_128_encrypt_wp : forall x o, bytes 16 x -> 16 <= length o ->
  wp (aes_128_encrypt x o) (fun '(x', o') =>
    x' = AES_encrypt (repeat 0%N 16) x /\ written o o' 0 (AES_encrypt (repeat 0%N 16) x)).
Proof.
  intros x o Hx Ho. unfold aes_128_encrypt.
  rewrite expandKey_ok by (apply zero_bytes || reflexivity).
  pose proof (expanded_bytes _ zero_bytes) as HB.
  assert (ER : AES_encrypt (repeat 0%N 16) x = aes_cipher (rks (expanded (repeat 0%N 16))) x).
  { apply aes_cipher_ext. intros i Hi. symmetry. apply expanded_slice. auto. }
  cbn [bind]. rewrite ER. clear ER.
  set (ek0 := expanded (repeat 0%N 16)) in *. clearbody ek0. pose proof (proj1 HB) as L0. apply wp_bind.
  apply wp_for_up with (I := fun i (st : list N * list N) =>
    fst st = Pst (rks ek0) i x /\ shifted i ek0 (snd st)); [lia| | |].
  - split; [reflexivity|]. split; [reflexivity|]. split; [intros; lia|auto].
  - intros i [y ek] _ Hi [Hy HS]. cbn [fst snd] in Hy, HS.
    assert (By : bytes 16 y). { rewrite Hy. apply Pst_bytes; auto. intros. apply rks_bytes; auto; lia. }
    rewrite shiftRows_ok by apply By. cbn [bind]. apply wp_bind.
    eapply wp_mono; [apply shift_next; eauto; lia|]. intros ek' HS'.
    pose proof HS' as (L' & S1 & S2).
    rewrite addRoundKey_ok by (apply length_state || lia). cbn [bind]. fold (rks ek' i). rewrite S1 by lia.
    pose proof (ShiftRows_bytes _ By). assert (Bk : bytes 16 (ShiftRows (rks ek0 i))) by (apply ShiftRows_bytes, rks_bytes; auto; lia).
    rewrite subBytes_ok by (apply AddRoundKey_bytes; auto). cbn [bind].
    rewrite mixColumns_ok by (apply SubBytes_bytes, AddRoundKey_bytes; auto). cbn [bind]. apply wp_ok. split; auto.
    cbn [fst]. rewrite Hy. reflexivity.
  - intros [y ek] [Hy HS]. cbn [fst snd] in Hy, HS. change 160 with (16 * 10). change 144 with (16 * 9).
    assert (By : bytes 16 y). { rewrite Hy. apply Pst_bytes; auto. intros. apply rks_bytes; auto; lia. }
    rewrite shiftRows_ok by apply By. cbn [bind]. apply wp_bind.
    eapply wp_mono; [apply shift_next; eauto; lia|]. intros ek' HS'.
    pose proof HS' as (L' & S1 & S2).
    rewrite addRoundKey_ok by (apply length_state || lia). cbn [bind]. fold (rks ek' 9). rewrite S1 by lia.
    pose proof (ShiftRows_bytes _ By). assert (Bk : bytes 16 (ShiftRows (rks ek0 9))) by (apply ShiftRows_bytes, rks_bytes; auto; lia).
    rewrite subBytes_ok by (apply AddRoundKey_bytes; auto). cbn [bind].
    rewrite addRoundKey_ok by (apply length_state || lia). cbn [bind]. fold (rks ek' 10). rewrite S2 by lia.
    rewrite Hy. rewrite <- aes_cipher_P. apply wp_bind.
    assert (LC : length (aes_cipher (rks ek0) x) = 16) by apply length_state.
    eapply wp_mono; [apply copy_wp; [rewrite LC|]; auto|]. intros o' W.
    rewrite firstn_all2 in W by lia. apply wp_ok. split; [reflexivity|]. exact W.
Qed.
