(** Numbers and vectors, random matrices: lemmas for ModelGf2.v *)
From Coq Require Import Arith NArith ZArith List Bool Lia ZifyNat.
From Verif Require Import Base Spec LinAlg ModelM4ri SpecM4ri M4ri1 M4ri2 M4ri8 ModelM4ri2 SpecM4ri2 M4ri9 M4ri17 M4ri18 M4ri19 M4ri20 ModelGf2 SpecGf2.
From Verif Require ModelSM4.
Import ListNotations.
Local Open Scope nat_scope.
#[local] Ltac Zify.zify_post_hook ::= Z.to_euclidean_division_equations.

(** ** Numbers *)

Lemma tb_num : forall n f b, tb (num n f) b = Nat.ltb b n && f (n - 1 - b).
Proof.
  induction n as [|n IH]; intros f b; [apply tb_0|]. cbn [num]. unfold tb.
  destruct b as [|b].
  - change (N.of_nat 0) with 0%N. replace (S n - 1 - 0) with n by lia.
    change (Nat.ltb 0 (S n)) with true. cbn [andb]. destruct (f n).
    + apply N.testbit_odd_0.
    + rewrite N.add_0_r. apply N.testbit_even_0.
  - replace (N.of_nat (S b)) with (N.succ (N.of_nat b)) by lia.
    replace (S n - 1 - S b) with (n - 1 - b) by lia.
    change (Nat.ltb (S b) (S n)) with (Nat.ltb b n). rewrite <- IH. unfold tb. destruct (f n).
    + apply N.testbit_odd_succ. lia.
    + rewrite N.add_0_r. apply N.testbit_even_succ. lia.
Qed.
Lemma num_lt : forall n f, (num n f < 2 ^ N.of_nat n)%N.
Proof.
  intros n f. apply tb_lt. intros b Hb. rewrite tb_num. destruct (Nat.ltb_spec b n); [lia|reflexivity].
Qed.
Lemma num_ext : forall n f g, veq n f g -> num n f = num n g.
Proof.
  intros n f g H. apply tb_inj. intros b. rewrite !tb_num. destruct (Nat.ltb_spec b n); [|reflexivity].
  cbn [andb]. apply H. lia.
Qed.
Lemma bits_num : forall n f, veq n (bits n (num n f)) f.
Proof.
  intros n f i Hi. unfold bits. change (tb (num n f) (n - 1 - i) = f i). rewrite tb_num.
  destruct (Nat.ltb_spec (n - 1 - i) n); [|lia]. cbn [andb]. f_equal. lia.
Qed.
Lemma tb_mod : forall x n b, tb (x mod 2 ^ N.of_nat n) b = Nat.ltb b n && tb x b.
Proof.
  intros x n b. unfold tb. destruct (Nat.ltb_spec b n).
  - apply N.mod_pow2_bits_low. lia.
  - apply N.mod_pow2_bits_high. lia.
Qed.
Lemma num_bits : forall n x, num n (bits n x) = (x mod 2 ^ N.of_nat n)%N.
Proof.
  intros n x. apply tb_inj. intros b. rewrite tb_num, tb_mod. destruct (Nat.ltb_spec b n); [|reflexivity].
  cbn [andb]. unfold bits, tb. do 2 f_equal. lia.
Qed.
Lemma num_bits_id : forall n x, (x < 2 ^ N.of_nat n)%N -> num n (bits n x) = x.
Proof. intros n x H. rewrite num_bits. apply N.mod_small. exact H. Qed.
Lemma bits_mod : forall n m x, n <= m -> veq n (bits n (x mod 2 ^ N.of_nat m)) (bits n x).
Proof.
  intros n m x H i Hi. unfold bits. change (tb (x mod 2 ^ N.of_nat m) (n - 1 - i) = tb x (n - 1 - i)).
  rewrite tb_mod. destruct (Nat.ltb_spec (n - 1 - i) m); [reflexivity|lia].
Qed.
Lemma bits_lxor : forall n x y i, bits n (N.lxor x y) i = xorb (bits n x i) (bits n y i).
Proof. intros. apply N.lxor_spec. Qed.
Lemma bits_ext : forall n x y, (x < 2 ^ N.of_nat n)%N -> (y < 2 ^ N.of_nat n)%N -> veq n (bits n x) (bits n y) -> x = y.
Proof. intros n x y Hx Hy H. rewrite <- (num_bits_id n x), <- (num_bits_id n y) by assumption. apply num_ext. exact H. Qed.

(** ** Writing entries *)

Lemma wp_set : forall R C M i j v (x : bool) (Q : mzd -> Prop), okm R C M -> i < R -> j < C ->
  Z.rem v 2 = (if x then 1 else 0)%Z ->
  (forall M', okm R C M' -> (forall a b, bitat M' a b = if Nat.eqb a i && Nat.eqb b j then x else bitat M a b) -> Q M') ->
  wp (MatGf2Set M i j v) Q.
Proof. intros R C M i j v x Q HM Hi Hj Hv HQ. unfold MatGf2Set. rewrite Hv. apply (wp_write_bit R C); assumption. Qed.
Lemma rem_bit : forall x : bool, Z.rem (if x then 1 else 0) 2 = (if x then 1 else 0)%Z.
Proof. intros []; reflexivity. Qed.
Lemma rem_b2z : forall x : bool, Z.rem (Z.b2z x) 2 = (if x then 1 else 0)%Z.
Proof. intros []; reflexivity. Qed.
Lemma rem_ofN : forall t, Z.rem (Z.of_N (t mod 2)) 2 = (if tb t 0 then 1 else 0)%Z.
Proof.
  intros t. unfold tb. change (N.of_nat 0) with 0%N. assert (H := N.bit0_mod t).
  destruct (N.testbit t 0); cbn [N.b2n] in H; rewrite <- H; reflexivity.
Qed.
Lemma wp_get : forall R C M i j (Q : Z -> Prop), okm R C M -> i < R -> j < C -> Q (Z.b2z (bitat M i j)) -> wp (MatGf2Get M i j) Q.
Proof. intros R C M i j Q HM Hi Hj HQ. unfold MatGf2Get. apply wp_bind, (wp_read_bit R C); auto. Qed.

(** All entries of a rectangle at (r0, c0) of a matrix are written *)
Lemma wp_fill_row : forall R C M i c0 c1 c (g : nat -> bool) (f : nat -> mzd -> res mzd) (Q : mzd -> Prop), okm R C M -> i < R -> c0 + c1 <= C ->
  c = c1 ->
  (forall j M' (Q' : mzd -> Prop), j < c1 -> okm R C M' -> (forall M'', okm R C M'' ->
     (forall a b, bitat M'' a b = if Nat.eqb a i && Nat.eqb b (c0 + j) then g j else bitat M' a b) -> Q' M'') -> wp (f j M') Q') ->
  (forall M', okm R C M' -> (forall a b, bitat M' a b =
     if Nat.eqb a i && (Nat.leb c0 b && Nat.ltb b (c0 + c1)) then g (b - c0) else bitat M a b) -> Q M') ->
  wp (for_up 0 c f M) Q.
Proof.
  intros R C M i c0 c1 c g f Q HM Hi Hc -> Hf HQ.
  apply wp_for_up with (I := fun j M' => okm R C M' /\ forall a b, bitat M' a b =
     if Nat.eqb a i && (Nat.leb c0 b && Nat.ltb b (c0 + j)) then g (b - c0) else bitat M a b).
  - lia.
  - split; [exact HM|]. intros a b. destruct (Nat.leb_spec c0 b), (Nat.ltb_spec b (c0 + 0)); try lia; rewrite ?andb_false_r; reflexivity.
  - intros j M' _ Hj [HM' HE]. apply (Hf j M' _ Hj HM'). intros M'' HM'' HE''. split; [exact HM''|].
    intros a b. rewrite HE'', HE. destruct (Nat.eqb_spec a i); [|reflexivity]. cbn [andb].
    destruct (Nat.eqb_spec b (c0 + j)), (Nat.leb_spec c0 b), (Nat.ltb_spec b (c0 + j)), (Nat.ltb_spec b (c0 + S j)); try lia; cbn [andb]; try reflexivity.
    f_equal. lia.
  - intros M' [H1 H2]. apply HQ; assumption.
Qed.

(** ** Vectors *)

Lemma tb_half : forall t b, tb (N.shiftr t 1) b = tb t (b + 1).
Proof. intros. apply (tb_shr t 1). Qed.

Lemma wp_vec : forall n data M (Q : mzd -> Prop), okm n 1 M ->
  (forall M', okm n 1 M' -> (forall i, i < n -> bitat M' i 0 = bits n data i) -> Q M') -> wp (vec_from_bits data M) Q.
Proof.
  intros n data M Q HM HQ. unfold vec_from_bits. rewrite (proj1 HM). apply wp_bind.
  apply wp_for_down with (I := fun k (st : mzd * N) => okm n 1 (fst st) /\ (forall b, tb (snd st) b = tb data (b + (n - k))) /\
    forall i, k <= i -> i < n -> bitat (fst st) i 0 = bits n data i).
  - lia.
  - cbn [fst snd]. split; [exact HM|]. split; [intros b; f_equal; lia|intros; lia].
  - intros i [M' t] _ Hi (H1 & H2 & H3). cbn [fst snd] in *. apply wp_bind. apply (wp_set n 1 M' i 0 _ (tb t 0)); auto; [apply rem_ofN|].
    intros M'' HM'' HE. apply wp_ok. cbn [fst snd]. split; [exact HM''|]. split.
    + intros b. rewrite tb_half, H2. f_equal. lia.
    + intros a Ha1 Ha2. rewrite HE. destruct (Nat.eqb_spec a i).
      * cbn [andb Nat.eqb]. rewrite H2. subst a. unfold bits, tb. do 2 f_equal. lia.
      * cbn [andb]. apply H3; lia.
  - intros [M' t] (H1 & H2 & H3). cbn [fst snd] in *. apply wp_ok, HQ; [exact H1|]. intros i Hi. apply H3; lia.
Qed.
Lemma ulw_bits : forall u n x, n <= 32 \/ (x < 2 ^ 32)%N -> veq n (bits n (ModelSM4.ulw u x)) (bits n x).
Proof.
  intros u n x H. assert (E : ModelSM4.ulw u x = (x mod 2 ^ N.of_nat (match u with ModelSM4.UL32 => 32 | ModelSM4.UL64 => 64 end))%N)
    by (destruct u; reflexivity).
  rewrite E. destruct H as [H|H].
  - apply bits_mod. destruct u; lia.
  - rewrite N.mod_small; [intros i _; reflexivity|]. destruct u; [exact H|]. eapply N.lt_trans; [exact H|reflexivity].
Qed.
Lemma wp_vec_u : forall e n x M (Q : mzd -> Prop), okm n 1 M -> n <= 32 \/ (x < 2 ^ 32)%N ->
  (forall M', okm n 1 M' -> (forall i, i < n -> bitat M' i 0 = bits n x i) -> Q M') -> wp (InitVecFromBit e x M) Q.
Proof.
  intros e n x M Q HM Hx HQ. unfold InitVecFromBit. apply (wp_vec n); [exact HM|]. intros M' H1 H2. apply HQ; [exact H1|].
  intros i Hi. rewrite H2 by exact Hi. apply ulw_bits; assumption.
Qed.

Lemma wp_digits : forall n w M, okm n 1 M -> wp (digits (N.of_nat w) M) (fun d => d = (num n (col0 M) mod 2 ^ N.of_nat w)%N).
Proof.
  intros n w M HM. unfold digits. pose proof HM as (E1 & E2 & _). rewrite E1, E2. cbn [Nat.eqb negb].
  apply wp_for_up with (I := fun i d => d = (num i (col0 M) mod 2 ^ N.of_nat w)%N).
  - lia.
  - cbn [num]. symmetry. apply N.mod_0_l. apply N.pow_nonzero. lia.
  - intros i d _ Hi ->. apply wp_bind, (wp_get n 1); auto. apply wp_ok. cbn [num]. unfold col0 at 3. rewrite N.shiftl_mul_pow2.
    change (2 ^ 1)%N with 2%N.
    assert (H2 : (2 ^ N.of_nat w <> 0)%N) by (apply N.pow_nonzero; lia).
    rewrite N.add_mod_idemp_l by exact H2. rewrite (N.mul_comm _ 2).
    assert (EQ : (if Z.eqb (Z.b2z (bitat M i 0)) 1 then 1%N else 0%N) = (if bitat M i 0 then 1%N else 0%N)) by (destruct (bitat M i 0); reflexivity).
    rewrite EQ. rewrite <- (N.add_mod_idemp_l (2 * (_ mod _))) by exact H2. rewrite N.mul_mod_idemp_r by exact H2.
    apply N.add_mod_idemp_l. exact H2.
  - intros d Hd. exact Hd.
Qed.

(** ** Random matrices *)

Definition rword (e : menv) (s : nat) : N := fst (m4ri_random_word e s).
Lemma random_word_eq : forall e s, m4ri_random_word e s = (rword e s, s + 3).
Proof. reflexivity. Qed.
Lemma rword_at : forall e s b, tb (rword e s) b = tb (word_at (erand e) s) b && Nat.ltb b 64.
Proof.
  intros e s b. unfold rword, word_at, m4ri_random_word. cbn [fst]. rewrite Nat.add_0_r.
  change 24%N with (N.of_nat 24). change 48%N with (N.of_nat 48). rewrite <- !N.shiftl_mul_pow2.
  rewrite !tb_lxor, !tb_land, tb_ffff. change (2 ^ 31)%N with (2 ^ N.of_nat 31)%N. rewrite !tb_mod.
  destruct (Nat.ltb_spec b 64), (Nat.ltb_spec b 31); try lia; rewrite ?andb_true_r, ?andb_false_r, ?xorb_assoc; reflexivity.
Qed.
Lemma rword_high : forall e s b, 64 <= b -> tb (rword e s) b = false.
Proof. intros. rewrite rword_at. destruct (Nat.ltb_spec b 64); [lia|apply andb_false_r]. Qed.

Lemma wp_randomize : forall R C e A s (Q : mzd * nat -> Prop), okm R C A -> 0 < C ->
  (forall M, okm R C M -> (forall i j, i < R -> j < C -> bitat M i j = tb (rword e (s + 3 * (i * wwidth C + j / 64))) (j mod 64)) ->
     Q (M, s + 3 * (R * wwidth C))) ->
  wp (mzd_randomize e A s) Q.
Proof.
  intros R C e A s Q HA HC HQ. unfold mzd_randomize. rewrite (proj1 HA), (okm_width R C A HA).
  assert (HW : wwidth C = (C + 63) / 64) by reflexivity. assert (HWp := wwidth_pos C HC). set (w := wwidth C) in *.
  apply wp_for_up with (I := fun i (st : mzd * nat) => okm R C (fst st) /\ snd st = s + 3 * (i * w) /\
    forall a j, a < i -> j < C -> bitat (fst st) a j = tb (rword e (s + 3 * (a * w + j / 64))) (j mod 64)).
  - lia.
  - cbn [fst snd]. split; [exact HA|]. split; [lia|intros; lia].
  - intros i st _ Hi (H1 & H2 & H3). apply wp_bind.
    apply wp_for_up with (I := fun k (st : mzd * nat) => okm R C (fst st) /\ snd st = s + 3 * (i * w + k) /\
      (forall a j, a < i -> j < C -> bitat (fst st) a j = tb (rword e (s + 3 * (a * w + j / 64))) (j mod 64)) /\
      (forall j, j < 64 * k -> bitat (fst st) i j = tb (rword e (s + 3 * (i * w + j / 64))) (j mod 64))).
    + lia.
    + split; [exact H1|]. split; [lia|]. split; [exact H3|intros; lia].
    + intros k [M t] _ Hk (K1 & K2 & K3 & K4). cbn [fst snd] in *. rewrite random_word_eq. apply wp_bind.
      apply (wp_wset R C M i k); auto; [unfold w in *; lia| |].
      * intros b Hb. destruct (Nat.lt_ge_cases b 64) as [L|L]; [|rewrite rword_high in Hb by exact L; discriminate]. split; [exact L|lia].
      * intros M' K1' KE. apply wp_ok. cbn [fst snd]. split; [exact K1'|]. split; [lia|]. split.
        -- intros a j Ha Hj. rewrite KE. destruct (Nat.eqb_spec a i); [lia|]. cbn [andb]. apply K3; assumption.
        -- intros j Hj. rewrite KE, Nat.eqb_refl. cbn [andb]. destruct (Nat.eqb_spec (j / 64) k) as [->|Hne].
           ++ rewrite K2. reflexivity.
           ++ apply K4. lia.
    + intros [M t] (K1 & K2 & K3 & K4). cbn [fst snd] in *. apply wp_bind, (wp_wget R C); [exact K1|exact Hi|unfold w in *; lia|].
      rewrite random_word_eq. apply wp_bind.
      assert (X : forall b, tb (N.lxor (rw (nth i (mrows M) []) (w - 1)) (N.land (N.lxor (rw (nth i (mrows M) []) (w - 1)) (rword e t)) (high_bitmask M))) b
        = Nat.ltb b 64 && (Nat.ltb (64 * (w - 1) + b) C && tb (rword e t) b)).
      { intros b. rewrite tb_lxor, tb_land, tb_lxor, (tb_high R C M b K1 HC). fold w.
        destruct (Nat.ltb_spec b 64) as [L|L], (Nat.ltb_spec (64 * (w - 1) + b) C) as [L'|L']; cbn [andb].
        - rewrite andb_true_r. destruct (tb (rw _ _) b), (tb (rword e t) b); reflexivity.
        - rewrite andb_false_r, xorb_false_r. apply (wfr_tb C); [apply K1; exact Hi|lia].
        - rewrite andb_false_r, xorb_false_r. apply (wfr_tb C); [apply K1; exact Hi|lia].
        - rewrite andb_false_r, xorb_false_r. apply (wfr_tb C); [apply K1; exact Hi|lia]. }
      apply (wp_wset R C M i (w - 1)); auto; [unfold w in *; lia| |].
      * intros b Hb. rewrite X in Hb. destruct (Nat.ltb_spec b 64), (Nat.ltb_spec (64 * (w - 1) + b) C); try discriminate. split; assumption.
      * intros M' K1' KE. apply wp_ok. cbn [fst snd]. split; [exact K1'|]. split; [lia|].
        intros a j Ha Hj. rewrite KE. destruct (Nat.eqb_spec a i) as [->|Hne].
        -- cbn [andb]. destruct (Nat.eqb_spec (j / 64) (w - 1)) as [E|Hne].
           ++ rewrite X. destruct (Nat.ltb_spec (j mod 64) 64), (Nat.ltb_spec (64 * (w - 1) + j mod 64) C); try lia. cbn [andb].
              rewrite K2, E. reflexivity.
           ++ apply K4. lia.
        -- cbn [andb]. apply K3; lia.
  - intros [M t] (H1 & H2 & H3). cbn [fst snd] in *. rewrite H2. apply HQ; assumption.
Qed.
