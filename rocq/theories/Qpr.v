(** permuteQPR is a permutation; the stream of cus_random does not repeat. *)
From Coq Require Import Arith NArith ZArith Znumtheory List Bool Lia FinFun.
From Verif Require Import Base Tables Model Spec LinAlg Mem Cons Rand.
Import ListNotations.

(** ** 4294967291 is prime, by trial division *)

(** no divisor among d, d+1, ..., d+k-1 *)
Definition no_div (p : N) (d : N) (k : N) : bool :=
  fst (N.iter k (fun st => let '(ok, d) := st in
        ((ok && negb (N.eqb (p mod d) 0))%bool, N.succ d)) (true, d)).

Lemma no_div_spec : forall p d k, no_div p d k = true ->
  forall x, (d <= x < d + k)%N -> (p mod x <> 0)%N.
Proof.
  intros p d k. unfold no_div.
  set (f := fun st : bool * N => let '(ok, d) := st in
        ((ok && negb (N.eqb (p mod d) 0))%bool, N.succ d)).
  assert (H : forall k, snd (N.iter k f (true, d)) = (d + k)%N /\
            (fst (N.iter k f (true, d)) = true ->
             forall x, (d <= x < d + k)%N -> (p mod x <> 0)%N)).
  { intros k'. induction k' as [|k' [IH1 IH2]] using N.peano_ind.
    - split; [simpl; lia|]. intros _ x Hx. lia.
    - rewrite N.iter_succ. destruct (N.iter k' f (true, d)) as [ok d'].
      cbn [fst snd] in *. subst d'. cbn [f fst snd]. split; [lia|].
      intros Hok x Hx. apply andb_true_iff in Hok. destruct Hok as [Hok1 Hok2].
      destruct (N.eq_dec x (d + k')) as [->|Hne].
      + apply negb_true_iff, N.eqb_neq in Hok2. exact Hok2.
      + apply IH2; auto. lia. }
  apply H.
Qed.

Definition P : Z := 4294967291.

Lemma no_small_div : no_div 4294967291 2 65535 = true.
Proof. vm_compute. reflexivity. Qed.

Lemma P_prime : prime P.
Proof.
  destruct (prime_dec P) as [H|H]; [exact H|]. exfalso.
  apply not_prime_divide in H; [|reflexivity].
  destruct H as [d [[H1 H2] [q Hq]]].
  assert (Hsmall : forall x, (1 < x <= 65536)%Z -> ~ (x | P)%Z).
  { intros x Hx Hd. apply Zdivide_mod in Hd.
    apply (no_div_spec _ _ _ no_small_div (Z.to_N x)); [lia|].
    apply N2Z.inj. rewrite N2Z.inj_mod by lia. rewrite Z2N.id by lia. exact Hd. }
  unfold P in *.
  destruct (Z.le_gt_cases d 65536) as [Hd|Hd].
  - apply (Hsmall d); [lia|]. exists q. exact Hq.
  - apply (Hsmall q); [nia|]. exists d. lia.
Qed.

(** ** -1 is not a square modulo a number that is 3 modulo 4 *)

Open Scope Z_scope.

Lemma even_square_mod4 : forall x, Z.even x = true -> (x * x + 1) mod 4 = 1.
Proof.
  intros x H. apply Z.even_spec in H. destruct H as [y ->].
  replace (2 * y * (2 * y) + 1) with (1 + (y * y) * 4) by ring.
  rewrite Z_mod_plus_full. reflexivity.
Qed.

Lemma no_sqrt_m1_nat : forall n m, (Z.to_nat m < n)%nat -> 0 < m -> m mod 4 = 3 ->
  forall x, ~ (m | x * x + 1).
Proof.
  induction n as [|n IH]; intros m Hn Hm H3 x Hdiv; [lia|].
  (* reduce to an even representative below m *)
  assert (Hm3 : 3 <= m).
  { pose proof (Z.mod_le m 4 ltac:(lia) ltac:(lia)). lia. }
  assert (Hx : exists y, 0 <= y < m /\ (m | y * y + 1) /\ Z.even y = true).
  { set (y := x mod m). assert (Hy : 0 <= y < m) by (apply Z.mod_pos_bound; lia).
    assert (Hyd : (m | y * y + 1)).
    { destruct Hdiv as [q Hq]. exists (q - 2 * (x / m) * y - (x / m) * (x / m) * m).
      pose proof (Z.div_mod x m ltac:(lia)) as D. fold y in D.
      assert (x = m * (x / m) + y) by lia. nia. }
    destruct (Z.even y) eqn:E.
    - exists y. auto.
    - exists (m - y). split; [|split].
      + assert (y <> 0) by (intros ->; discriminate). lia.
      + destruct Hyd as [q Hq]. exists (m - 2 * y + q).
        replace ((m - y) * (m - y) + 1) with (m * m - 2 * y * m + (y * y + 1)) by ring.
        rewrite Hq. ring.
      + rewrite Z.even_sub, E.
        assert (Hodd : Z.even m = false).
        { rewrite (Z.div_mod m 4) by lia. rewrite H3. rewrite Z.even_add.
          replace (4 * (m / 4)) with (2 * (2 * (m / 4))) by ring.
          rewrite Z.even_mul. reflexivity. }
        rewrite Hodd. reflexivity. }
  destruct Hx as (y & Hy & [k Hk] & He).
  pose proof (even_square_mod4 y He) as M1. rewrite Hk in M1.
  assert (Hkm : 0 < k < m) by nia.
  apply (IH k) with (x := y); [lia|lia| |exists m; lia].
  rewrite Zmult_mod, H3 in M1.
  assert (Hc : k mod 4 = 0 \/ k mod 4 = 1 \/ k mod 4 = 2 \/ k mod 4 = 3).
  { pose proof (Z.mod_pos_bound k 4 ltac:(lia)). lia. }
  destruct Hc as [E|[E|[E|E]]]; rewrite E in M1; cbn in M1; try discriminate. exact E.
Qed.

Lemma P_no_sqrt : forall x, ~ (P | x * x + 1).
Proof. intros x. apply (no_sqrt_m1_nat (S (Z.to_nat P)) P); try reflexivity. lia. Qed.

(** x^2 + y^2 = 0 (mod P) only for x = y = 0 *)
Lemma sum_squares_zero : forall x y, (P | x * x + y * y) -> (P | y).
Proof.
  intros x y H. destruct (Zdivide_dec P y) as [Hy|Hy]; [exact Hy|]. exfalso.
  pose proof (prime_rel_prime P P_prime y Hy) as HR.
  destruct (rel_prime_bezout P y HR) as [u v Huv].
  (* v is the inverse of y *)
  apply (P_no_sqrt (v * x)).
  destruct H as [q Hq].
  (* v^2 (x^2 + y^2) = v^2 q P and (v y)^2 = (1 - u P)^2 *)
  exists (v * v * q + 2 * u - u * u * P).
  assert (E : v * y = 1 - u * P) by lia.
  assert (E2 : (v * y) * (v * y) = (1 - u * P) * (1 - u * P)) by (rewrite E; reflexivity).
  replace (v * x * (v * x)) with (v * v * (x * x + y * y) - (v * y) * (v * y)) by ring.
  rewrite Hq, E2. ring.
Qed.

(** equal squares *)
Lemma equal_squares : forall x y, (P | x * x - y * y) -> (P | x - y) \/ (P | x + y).
Proof.
  intros x y H. replace (x * x - y * y) with ((x - y) * (x + y)) in H by ring.
  apply prime_mult; [exact P_prime|exact H].
Qed.

(** ** permuteQPR over Z *)

Definition qprZ (x : Z) : Z :=
  if P <=? x then x
  else if x <=? 2147483645 then (x * x) mod P else (P - (x * x) mod P) mod 4294967296.

Lemma permuteQPR_Z : forall x, (x < 2 ^ 32)%N -> Z.of_N (permuteQPR x) = qprZ (Z.of_N x).
Proof.
  intros x Hx. unfold permuteQPR, qprZ. change qpr_prime with (Z.to_N P). cbv zeta.
  assert (HxZ : 0 <= Z.of_N x < 4294967296) by (change (2 ^ 32)%N with 4294967296%N in Hx; lia).
  assert (HP : Z.of_N (Z.to_N P) = P) by reflexivity.
  destruct (N.leb_spec (Z.to_N P) x) as [H|H]; destruct (Z.leb_spec P (Z.of_N x)) as [H'|H']; try lia.
  change (Z.to_N P / 2)%N with 2147483645%N.
  assert (Hres : Z.of_N (u32 (((x * x) mod 2 ^ 64) mod Z.to_N P)) = (Z.of_N x * Z.of_N x) mod P).
  { unfold u32. rewrite !N2Z.inj_mod, N2Z.inj_mul by (try discriminate).
    change (Z.of_N (2 ^ 64)) with 18446744073709551616.
    change (Z.of_N (2 ^ 32)) with 4294967296. rewrite HP.
    rewrite (Z.mod_small (_ * _) 18446744073709551616) by nia.
    apply Z.mod_small. pose proof (Z.mod_pos_bound (Z.of_N x * Z.of_N x) P ltac:(reflexivity)).
    unfold P in *. lia. }
  destruct (N.leb_spec x 2147483645) as [G|G]; destruct (Z.leb_spec (Z.of_N x) 2147483645) as [G'|G']; try lia.
  { unfold u32 at 1. rewrite N2Z.inj_mod by discriminate.
    rewrite N2Z.inj_sub.
    - rewrite Hres, HP. reflexivity.
    - apply N2Z.inj_le. rewrite Hres, HP.
      pose proof (Z.mod_pos_bound (Z.of_N x * Z.of_N x) P ltac:(reflexivity)). lia. }
Qed.

Lemma mod_zero_P : forall x, 0 <= x < P -> (x * x) mod P = 0 -> x = 0.
Proof.
  intros x Hx H. apply Zmod_divide in H; [|discriminate].
  apply (prime_mult P P_prime) in H. assert (Hd : (P | x)) by tauto.
  destruct Hd as [q Hq]. unfold P in *. nia.
Qed.

Lemma small_div : forall z, - P < z < P -> (P | z) -> z = 0.
Proof. intros z Hz [q Hq]. unfold P in *. nia. Qed.

Lemma mod_eq_div : forall a b, a mod P = b mod P -> (P | a - b).
Proof.
  intros a b H. apply Zmod_divide; [discriminate|].
  rewrite Zminus_mod, H, Z.sub_diag. reflexivity.
Qed.

Lemma qprZ_inj : forall x y, 0 <= x < 4294967296 -> 0 <= y < 4294967296 ->
  qprZ x = qprZ y -> x = y.
Proof.
  assert (HM : forall z, 0 <= (z * z) mod P < P) by (intros; apply Z.mod_pos_bound; reflexivity).
  assert (HN : forall z, 2147483645 < z < P ->
                 (P - (z * z) mod P) mod 4294967296 = P - (z * z) mod P /\ 0 < (z * z) mod P).
  { intros z Hz. assert (Hnz : (z * z) mod P <> 0).
    { intros E. apply mod_zero_P in E; unfold P in *; lia. }
    pose proof (HM z). split; [|lia]. apply Z.mod_small. unfold P in *. lia. }
  (* a mixed pair is impossible *)
  assert (Hmix : forall x y, 0 <= x <= 2147483645 -> 2147483645 < y < P ->
            (x * x) mod P = P - (y * y) mod P -> False).
  { intros x y Hx Hy E.
    assert (Hd : (P | x * x + y * y)).
    { apply Zmod_divide; [discriminate|]. rewrite Zplus_mod, E.
      replace (P - (y * y) mod P + (y * y) mod P) with (1 * P) by ring. apply Z_mod_mult. }
    apply sum_squares_zero in Hd. apply small_div in Hd; unfold P in *; lia. }
  intros x y Hx Hy. unfold qprZ.
  destruct (Z.leb_spec P x) as [Px|Px]; destruct (Z.leb_spec P y) as [Py|Py].
  - auto.
  - destruct (Z.leb_spec y 2147483645) as [Sy|Sy]; intros E.
    + pose proof (HM y). lia.
    + destruct (HN y ltac:(lia)) as [N1 N2]. rewrite N1 in E. lia.
  - destruct (Z.leb_spec x 2147483645) as [Sx|Sx]; intros E.
    + pose proof (HM x). lia.
    + destruct (HN x ltac:(lia)) as [N1 N2]. rewrite N1 in E. lia.
  - destruct (Z.leb_spec x 2147483645) as [Sx|Sx]; destruct (Z.leb_spec y 2147483645) as [Sy|Sy]; intros E.
    + apply mod_eq_div in E. apply equal_squares in E.
      destruct E as [E|E]; apply small_div in E; unfold P in *; lia.
    + exfalso. destruct (HN y ltac:(lia)) as [N1 N2]. rewrite N1 in E. apply (Hmix x y); lia.
    + exfalso. destruct (HN x ltac:(lia)) as [N1 N2]. rewrite N1 in E. apply (Hmix y x); lia.
    + destruct (HN x ltac:(lia)) as [N1 N2]. destruct (HN y ltac:(lia)) as [N3 N4].
      rewrite N1, N3 in E. assert (E' : (x * x) mod P = (y * y) mod P) by lia.
      apply mod_eq_div in E'. apply equal_squares in E'. destruct E' as [E'|E'].
      * apply small_div in E'; unfold P in *; lia.
      * replace (x + y) with ((x + y - P) + 1 * P) in E' by ring.
        assert (E2 : (P | x + y - P)).
        { replace (x + y - P) with ((x + y - P + 1 * P) - 1 * P) by ring.
          apply Z.divide_sub_r; [exact E'|]. exists 1. reflexivity. }
        apply small_div in E2; unfold P in *; lia.
Qed.

Close Scope Z_scope.

Lemma permuteQPR_bound : forall x, (x < 2 ^ 32)%N -> (permuteQPR x < 2 ^ 32)%N.
Proof.
  intros x Hx. unfold permuteQPR. cbv zeta.
  destruct (N.leb qpr_prime x); [exact Hx|].
  destruct (N.leb x (qpr_prime / 2)); unfold u32; apply N.mod_lt; discriminate.
Qed.
Lemma permuteQPR_inj : forall x y, (x < 2 ^ 32)%N -> (y < 2 ^ 32)%N ->
  permuteQPR x = permuteQPR y -> x = y.
Proof.
  intros x y Hx Hy H. apply (f_equal Z.of_N) in H. rewrite !permuteQPR_Z in H by auto.
  apply N2Z.inj. change (2 ^ 32)%N with 4294967296%N in *. apply qprZ_inj; auto; lia.
Qed.

(** an injective function on the numbers below n is onto *)
Lemma N_inj_surj : forall (n : N) (f : N -> N),
  (forall x, x < n -> f x < n)%N ->
  (forall x y, x < n -> y < n -> f x = f y -> x = y)%N ->
  forall y, (y < n)%N -> exists x, (x < n)%N /\ f x = y.
Proof.
  intros n f Hb Hi y Hy.
  pose (g := fun k => N.to_nat (f (N.of_nat k))).
  assert (HB : bFun (N.to_nat n) g).
  { intros k Hk. unfold g. assert (f (N.of_nat k) < n)%N by (apply Hb; lia). lia. }
  assert (HS : bSurjective (N.to_nat n) g).
  { apply bInjective_bSurjective; auto. intros a b Ha Hb' E. unfold g in E.
    apply Nat2N.inj, Hi; lia. }
  destruct (HS (N.to_nat y) ltac:(lia)) as [k [Hk E]]. exists (N.of_nat k).
  split; [lia|]. unfold g in E. lia.
Qed.

Lemma permuteQPR_surj : forall y, (y < 2 ^ 32)%N -> exists x, (x < 2 ^ 32)%N /\ permuteQPR x = y.
Proof. apply N_inj_surj; [exact permuteQPR_bound|exact permuteQPR_inj]. Qed.

(** ** The stream *)

Lemma adv_fields : forall s k, (w_idx s < 2 ^ 32)%N ->
  w_idx (adv s k) = u32 (w_idx s + N.of_nat k) /\ w_off (adv s k) = w_off s /\
  w_seed (adv s k) = w_seed s /\ w_clk (adv s k) = w_clk s /\ w_tick (adv s k) = w_tick s.
Proof.
  intros s k Hs. induction k as [|k (I1 & I2 & I3 & I4 & I5)].
  - cbn [adv Nat.iter]. repeat split; auto. unfold u32. rewrite N.add_0_r, N.mod_small; auto.
  - rewrite adv_S. unfold cus_random. cbn [snd w_idx w_off w_seed w_clk w_tick].
    repeat split; auto. rewrite I1. unfold u32. rewrite N.add_mod_idemp_l by discriminate.
    f_equal. lia.
Qed.

Definition out32 (idx off : N) : N :=
  permuteQPR (N.lxor (u32 (permuteQPR idx + off)) 0x5bf03635).

Lemma u32_lt : forall x, (u32 x < 2 ^ 32)%N.
Proof. intros. unfold u32. apply N.mod_lt. discriminate. Qed.

Lemma u32_add_inj : forall a b c, (a < 2 ^ 32)%N -> (b < 2 ^ 32)%N ->
  u32 (a + c) = u32 (b + c) -> a = b.
Proof.
  intros a b c Ha Hb H. unfold u32 in H. change (2 ^ 32)%N with 4294967296%N in *.
  assert (HZ : ((Z.of_N a + Z.of_N c) mod 4294967296 = (Z.of_N b + Z.of_N c) mod 4294967296)%Z).
  { rewrite <- !N2Z.inj_add. change 4294967296%Z with (Z.of_N 4294967296).
    rewrite <- !N2Z.inj_mod by discriminate. congruence. }
  pose proof (Z.div_mod (Z.of_N a + Z.of_N c) 4294967296 ltac:(lia)).
  pose proof (Z.div_mod (Z.of_N b + Z.of_N c) 4294967296 ltac:(lia)).
  nia.
Qed.

Lemma out32_inj : forall i j off, (i < 2 ^ 32)%N -> (j < 2 ^ 32)%N ->
  out32 i off = out32 j off -> i = j.
Proof.
  intros i j off Hi Hj H. unfold out32 in H.
  assert (Hx : forall x, (x < 2 ^ 32 -> N.lxor x 0x5bf03635 < 2 ^ 32)%N).
  { intros x Hx. apply lxor_bound; auto. reflexivity. }
  apply permuteQPR_inj in H; try (apply Hx, u32_lt).
  apply (f_equal (fun z => N.lxor z 0x5bf03635)) in H.
  rewrite !N.lxor_assoc, N.lxor_nilpotent, !N.lxor_0_r in H.
  apply u32_add_inj in H; auto using permuteQPR_bound.
  apply permuteQPR_inj in H; auto.
Qed.

Lemma rnd_out : forall s k, (w_idx s < 2 ^ 32)%N ->
  rnd s k = out32 (u32 (w_idx s + N.of_nat k)) (w_off s).
Proof.
  intros s k Hs. destruct (adv_fields s k Hs) as (I1 & I2 & _).
  unfold rnd, cus_random. cbn [fst]. rewrite I1, I2. reflexivity.
Qed.
Lemma rnd_bound : forall s k, (rnd s k < 2 ^ 32)%N.
Proof.
  intros s k. unfold rnd, cus_random. cbn [fst]. apply permuteQPR_bound.
  apply lxor_bound; [apply u32_lt|reflexivity].
Qed.

Lemma rnd_inj : forall s a b, (w_idx s < 2 ^ 32)%N ->
  (N.of_nat a < N.of_nat b + 2 ^ 32)%N -> (N.of_nat b < N.of_nat a + 2 ^ 32)%N ->
  rnd s a = rnd s b -> a = b.
Proof.
  intros s a b Hs H1 H2 E. rewrite !rnd_out in E by auto.
  apply out32_inj in E; try apply u32_lt.
  unfold u32 in E. change (2 ^ 32)%N with 4294967296%N in *.
  assert (HZ : ((Z.of_N (w_idx s) + Z.of_nat a) mod 4294967296
              = (Z.of_N (w_idx s) + Z.of_nat b) mod 4294967296)%Z).
  { rewrite <- !nat_N_Z, <- !N2Z.inj_add. change 4294967296%Z with (Z.of_N 4294967296).
    rewrite <- !N2Z.inj_mod by discriminate. congruence. }
  pose proof (Z.div_mod (Z.of_N (w_idx s) + Z.of_nat a) 4294967296 ltac:(lia)).
  pose proof (Z.div_mod (Z.of_N (w_idx s) + Z.of_nat b) 4294967296 ltac:(lia)).
  nia.
Qed.

Lemma InitRandom_idx : forall b s, (w_idx (InitRandom b s) < 2 ^ 32)%N.
Proof. intros b s. unfold InitRandom. cbn [w_idx]. apply permuteQPR_bound, u32_lt. Qed.
Lemma reseed_idx : forall s, (w_idx (reseed s) < 2 ^ 32)%N.
Proof. intros s. unfold reseed, time_null. apply InitRandom_idx. Qed.

(** every 32-bit value occurs: the period is exactly 2^32 *)
Lemma rnd_period : forall s k, (w_idx s < 2 ^ 32)%N ->
  fst (cus_random (mkworld (w_seed s) (u32 (w_idx s + k + 2 ^ 32)) (w_off s) (w_clk s) (w_tick s)))
  = fst (cus_random (mkworld (w_seed s) (u32 (w_idx s + k)) (w_off s) (w_clk s) (w_tick s))).
Proof.
  intros s k Hs. unfold cus_random. cbn [fst w_idx w_off]. f_equal. f_equal. f_equal. f_equal.
  f_equal. unfold u32. rewrite <- N.add_mod_idemp_r by discriminate.
  rewrite N.mod_same, N.add_0_r by discriminate. reflexivity.
Qed.

Lemma rnd_surj : forall s v, (w_idx s < 2 ^ 32)%N -> (v < 2 ^ 32)%N ->
  exists i, (i < 2 ^ 32)%N /\ out32 (u32 (w_idx s + i)) (w_off s) = v.
Proof.
  intros s v Hs Hv.
  apply (N_inj_surj (2 ^ 32) (fun i => out32 (u32 (w_idx s + i)) (w_off s))); auto.
  - intros x Hx. unfold out32. apply permuteQPR_bound, lxor_bound; [apply u32_lt|reflexivity].
  - intros x y Hx Hy E. apply out32_inj in E; try apply u32_lt.
    rewrite (N.add_comm _ x), (N.add_comm _ y) in E. apply u32_add_inj in E; auto.
Qed.
