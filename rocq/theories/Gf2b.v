(** Products, affine maps and their random generation: lemmas for ModelGf2.v *)
From Coq Require Import Arith NArith ZArith List Bool Lia ZifyNat Setoid Morphisms.
From Verif Require Import Base Spec LinAlg ModelM4ri SpecM4ri M4ri1 M4ri2 M4ri8 ModelM4ri2 SpecM4ri2 M4ri9 M4ri14 M4ri17 M4ri18 M4ri19 M4ri20 ModelGf2 SpecGf2 Gf2a.
From Verif Require ModelSM4.
Import ListNotations.
Local Open Scope nat_scope.
#[local] Ltac Zify.zify_post_hook ::= Z.to_euclidean_division_equations.

Lemma junk_ok : forall e, env_ok e -> forall b, length (ejunk e b) = 64 /\ w64 (ejunk e b).
Proof.
  intros e H b. destruct (H b) as [H1 H2]. split; [exact H1|]. intros k i Hi. unfold rw.
  destruct (Nat.lt_ge_cases k 64) as [L|L]; [|rewrite nth_overflow by lia; apply tb_0].
  assert (X : (nth k (ejunk e b) 0%N < 2 ^ N.of_nat 64)%N) by (apply H2, nth_In; lia).
  rewrite tb_lt in X. apply X. exact Hi.
Qed.

(** sizes for which M4RI products with a vector are in one block *)
Definition vsmall (n : nat) : Prop := small n 1 /\ small 1 n.
Lemma vsmall_le : forall n, n <= 4096 -> vsmall n.
Proof. intros n H. split; unfold small; lia. Qed.
Lemma small_le : forall r c, r <= 4096 -> c <= 4096 -> small r c.
Proof.
  intros r c H1 H2. unfold small. change (2 ^ 32)%N with 4294967296%N.
  apply N.le_trans with (4096 * 4223)%N; [|discriminate]. apply N.mul_le_mono; lia.
Qed.

Lemma wp_gmul : forall R n C e A B (Q : mzd -> Prop), env_ok e -> okm R n A -> okm n C B -> 0 < n -> 0 < C -> small n C -> small C n ->
  (forall M, okm R C M -> (forall i j, i < R -> j < C -> bitat M i j = fmul n (bitat A) (bitat B) i j) -> Q M) ->
  wp (GenMatGf2Mul e A B) Q.
Proof. intros R n C e A B Q HE HA HB Hn HC S1 S2 HQ. unfold GenMatGf2Mul. apply (wp_mul_m4rm R n C); auto. apply junk_ok. exact HE. Qed.

(** product with a vector *)
Lemma wp_mulv : forall R n e A v (Q : mzd -> Prop), env_ok e -> okm R n A -> okm n 1 v -> 0 < n -> vsmall n ->
  (forall M, okm R 1 M -> (forall i, i < R -> col0 M i = fapp n (bitat A) (col0 v) i) -> Q M) ->
  wp (GenMatGf2Mul e A v) Q.
Proof.
  intros R n e A v Q HE HA HB Hn [S1 S2] HQ. apply (wp_gmul R n 1); auto. intros M HM H. apply HQ; [exact HM|].
  intros i Hi. unfold col0 at 1. rewrite H by lia. reflexivity.
Qed.
Lemma wp_addv : forall n A B (Q : mzd -> Prop), okm n 1 A -> okm n 1 B ->
  (forall M, okm n 1 M -> veq n (col0 M) (vadd (col0 A) (col0 B)) -> Q M) -> wp (mzd_add A B) Q.
Proof.
  intros n A B Q HA HB HQ. apply (wp_add n 1); auto. intros M HM H. apply HQ; [exact HM|]. intros i Hi. apply H. exact Hi.
Qed.

Definition okaff (n : nat) (f : afft) : Prop := okm n n (alin f) /\ okm n 1 (atrans f).
Lemma okaff_valid : forall n f, valid_aff n f <-> okaff n f.
Proof. intros. unfold valid_aff, okaff. rewrite !okm_valid. reflexivity. Qed.

Lemma mod_mod_le : forall x n w, n <= w -> ((x mod 2 ^ N.of_nat w) mod 2 ^ N.of_nat n = x mod 2 ^ N.of_nat n)%N.
Proof.
  intros x n w H. apply tb_inj. intros b. rewrite !tb_mod. destruct (Nat.ltb_spec b n), (Nat.ltb_spec b w); try lia; reflexivity.
Qed.

(** the functions ApplyMatToU *)
Lemma wp_apply_mat : forall e n A x, env_ok e -> okm n n A -> 0 < n -> n <= 32 ->
  ApplyMatToU e n A x = Ok (num n (fapp n (bitat A) (bits n x))).
Proof.
  intros e n A x HE HA Hn H32.
  assert (H : wp (ApplyMatToU e n A x) (fun y => y = num n (fapp n (bitat A) (bits n x)))).
  { unfold ApplyMatToU. apply wp_bind, (wp_vec_u e n); [apply init_ok|left; exact H32|]. intros v Hv Ev. apply wp_bind.
    apply (wp_mulv n n); auto; [apply vsmall_le; lia|]. intros M HM EM. apply wp_bind.
    eapply wp_mono; [apply (wp_digits n 32); exact HM|]. intros d ->. apply wp_ok.
    rewrite mod_mod_le by exact H32. rewrite N.mod_small by apply num_lt. apply num_ext. intros i Hi. rewrite EM by exact Hi.
    apply fapp_proper; [reflexivity| |exact Hi]. intros k Hk. apply Ev. exact Hk. }
  destruct (wp_exists _ _ _ H) as (y & E & ->). exact E.
Qed.
Lemma wp_apply_mat64 : forall e A x, env_ok e -> okm 64 64 A ->
  ApplyMatToU64 e A x = Ok (num 64 (fapp 64 (bitat A) (bits 64 x))).
Proof.
  intros e A x HE HA.
  assert (H : wp (ApplyMatToU64 e A x) (fun y => y = num 64 (fapp 64 (bitat A) (bits 64 x)))).
  { unfold ApplyMatToU64, InitVecFromBit_64. apply wp_bind, (wp_vec 64); [apply init_ok|]. intros v Hv Ev. apply wp_bind.
    apply (wp_mulv 64 64); auto; [lia|apply vsmall_le; lia|]. intros M HM EM. unfold get64FromVec. rewrite (proj1 HM). cbn [Nat.eqb negb].
    eapply wp_mono; [apply (wp_digits 64 64); exact HM|]. intros d ->.
    rewrite N.mod_small by apply num_lt. apply num_ext. intros i Hi. rewrite EM by exact Hi.
    apply fapp_proper; [reflexivity| |exact Hi]. intros k Hk. unfold col0. rewrite Ev by exact Hk. apply (bits_mod 64 64); [lia|exact Hk]. }
  destruct (wp_exists _ _ _ H) as (y & E & ->). exact E.
Qed.
Lemma wp_apply_mat128 : forall e A x, env_ok e -> okm 128 128 A ->
  ApplyMatToU128 e A x = Ok (num 128 (fapp 128 (bitat A) (bits 128 x))).
Proof.
  intros e A x HE HA.
  assert (H : wp (ApplyMatToU128 e A x) (fun y => y = num 128 (fapp 128 (bitat A) (bits 128 x)))).
  { unfold ApplyMatToU128, InitVecFromBit_128. apply wp_bind, (wp_vec 128); [apply init_ok|]. intros v Hv Ev. apply wp_bind.
    apply (wp_mulv 128 128); auto; [lia|apply vsmall_le; lia|]. intros M HM EM. unfold get128FromVec. rewrite (proj1 HM), Nat.eqb_refl. cbn [negb].
    eapply wp_mono; [apply (wp_digits 128 128); exact HM|]. intros d ->.
    rewrite N.mod_small by apply num_lt. apply num_ext. intros i Hi. rewrite EM by exact Hi.
    apply fapp_proper; [reflexivity| |exact Hi]. intros k Hk. unfold col0. rewrite Ev by exact Hk. apply (bits_mod 128 128); [lia|exact Hk]. }
  destruct (wp_exists _ _ _ H) as (y & E & ->). exact E.
Qed.

(** adding a number to a vector *)
Lemma num_lxor : forall n f x, (x < 2 ^ N.of_nat n)%N -> num n (vadd f (bits n x)) = N.lxor (num n f) x.
Proof.
  intros n f x Hx. apply (bits_ext n); [apply num_lt| |].
  - apply tb_lt. intros b Hb. rewrite tb_lxor. rewrite (proj1 (tb_lt x n) Hx b Hb). rewrite (proj1 (tb_lt _ n) (num_lt n f) b Hb). reflexivity.
  - intros i Hi. rewrite bits_lxor, !bits_num by exact Hi. reflexivity.
Qed.
Lemma wp_gen_add : forall e n A x (Q : mzd -> Prop), okm n 1 A -> n <= 32 ->
  (forall M, okm n 1 M -> veq n (col0 M) (vadd (col0 A) (bits n x)) -> Q M) -> wp (GenMatAddU e n A x) Q.
Proof.
  intros e n A x Q HA Hn HQ. unfold GenMatAddU. apply wp_bind, (wp_vec_u e n); [apply init_ok|left; exact Hn|]. intros v Hv Ev.
  apply (wp_addv n); auto. intros M HM EM. apply HQ; [exact HM|]. rewrite EM. intros i Hi. unfold vadd. f_equal. apply Ev. exact Hi.
Qed.
Lemma add_u32 : forall e A x, okm 32 1 A -> (x < 2 ^ 32)%N -> AddMatToU32 e A x = Ok (N.lxor (num 32 (col0 A)) x).
Proof.
  intros e A x HA Hx.
  assert (H : wp (AddMatToU32 e A x) (fun y => y = N.lxor (num 32 (col0 A)) x)).
  { unfold AddMatToU32. apply wp_bind, (wp_vec_u e 32); [apply init_ok|left; lia|]. intros v Hv Ev. apply wp_bind.
    apply (wp_addv 32); auto. intros M HM EM. unfold get32FromVec. rewrite (proj1 HM). cbn [Nat.eqb negb].
    eapply wp_mono; [apply (wp_digits 32 32); exact HM|]. intros d ->. rewrite N.mod_small by apply num_lt.
    rewrite <- (num_lxor 32) by exact Hx. apply num_ext. rewrite EM. intros i Hi. unfold vadd. f_equal. apply Ev. exact Hi. }
  destruct (wp_exists _ _ _ H) as (y & E & ->). exact E.
Qed.
Lemma add_u64 : forall A x, okm 64 1 A -> (x < 2 ^ 64)%N -> AddMatToU64 A x = Ok (N.lxor (num 64 (col0 A)) x).
Proof.
  intros A x HA Hx.
  assert (H : wp (AddMatToU64 A x) (fun y => y = N.lxor (num 64 (col0 A)) x)).
  { unfold AddMatToU64, InitVecFromBit_64. apply wp_bind, (wp_vec 64); [apply init_ok|]. intros v Hv Ev. apply wp_bind.
    apply (wp_addv 64); auto. intros M HM EM. unfold get64FromVec. rewrite (proj1 HM). cbn [Nat.eqb negb].
    eapply wp_mono; [apply (wp_digits 64 64); exact HM|]. intros d ->. rewrite N.mod_small by apply num_lt.
    rewrite <- (num_lxor 64) by exact Hx. apply num_ext. rewrite EM. intros i Hi. unfold vadd. f_equal. unfold col0. rewrite Ev by exact Hi.
    apply (bits_mod 64 64); [lia|exact Hi]. }
  destruct (wp_exists _ _ _ H) as (y & E & ->). exact E.
Qed.
Lemma add_u128 : forall A x, okm 128 1 A -> (x < 2 ^ 128)%N -> AddMatToU128 A x = Ok (N.lxor (num 128 (col0 A)) x).
Proof.
  intros A x HA Hx.
  assert (H : wp (AddMatToU128 A x) (fun y => y = N.lxor (num 128 (col0 A)) x)).
  { unfold AddMatToU128, InitVecFromBit_128. apply wp_bind, (wp_vec 128); [apply init_ok|]. intros v Hv Ev. apply wp_bind.
    apply (wp_addv 128); auto. intros M HM EM. unfold get128FromVec. rewrite (proj1 HM), Nat.eqb_refl. cbn [negb].
    eapply wp_mono; [apply (wp_digits 128 128); exact HM|]. intros d ->. rewrite N.mod_small by apply num_lt.
    rewrite <- (num_lxor 128) by exact Hx. apply num_ext. rewrite EM. intros i Hi. unfold vadd. f_equal. unfold col0. rewrite Ev by exact Hi.
    apply (bits_mod 128 128); [lia|exact Hi]. }
  destruct (wp_exists _ _ _ H) as (y & E & ->). exact E.
Qed.

(** ** Affine maps *)

Lemma affine_f_ext : forall n A A' v v' x x', feq n A A' -> veq n v v' -> veq n x x' -> veq n (affine_f n A v x) (affine_f n A' v' x').
Proof. intros. unfold affine_f. apply vadd_proper; [apply fapp_proper; assumption|assumption]. Qed.

Lemma wp_apply_vec : forall n e f v (Q : mzd -> Prop), env_ok e -> okaff n f -> okm n 1 v -> 0 < n -> vsmall n ->
  (forall M, okm n 1 M -> veq n (col0 M) (affine_f n (bitat (alin f)) (col0 (atrans f)) (col0 v)) -> Q M) ->
  wp (ApplyAffineTransform e f v) Q.
Proof.
  intros n e f v Q HE [HA HV] Hv Hn HS HQ. unfold ApplyAffineTransform. apply wp_bind, (wp_mulv n n); auto. intros M HM EM.
  apply (wp_addv n); auto. intros M' HM' EM'. apply HQ; [exact HM'|]. rewrite EM'. intros i Hi. unfold affine_f, vadd.
  rewrite EM by exact Hi. apply xorb_comm.
Qed.
(** the common part of ApplyAffineToU32 and ApplyAffineToU *)
Lemma wp_apply_common : forall n e f x (Q : N -> Prop) k, env_ok e -> okaff n f -> 0 < n -> n <= 32 ->
  (forall M, okm n 1 M -> veq n (col0 M) (affine_f n (bitat (alin f)) (col0 (atrans f)) (bits n x)) -> wp (k M) Q) ->
  wp (m <- InitVecFromBit e x (mzd_init n 1) ;; m <- GenMatGf2Mul e (alin f) m ;; m <- mzd_add m (atrans f) ;; k m) Q.
Proof.
  intros n e f x Q k HE [HA HV] Hn H32 HQ. apply wp_bind, (wp_vec_u e n); [apply init_ok|left; exact H32|]. intros v Hv Ev. apply wp_bind.
  apply (wp_mulv n n); auto; [apply vsmall_le; lia|]. intros M HM EM. apply wp_bind. apply (wp_addv n); auto. intros M' HM' EM'.
  apply HQ; [exact HM'|]. rewrite EM'. intros i Hi. unfold affine_f, vadd. f_equal. rewrite EM by exact Hi.
  apply fapp_proper; [reflexivity| |exact Hi]. intros j Hj. apply Ev. exact Hj.
Qed.
Lemma apply_u32 : forall e f x, env_ok e -> okaff 32 f -> ApplyAffineToU32 e f x = Ok (affine_n 32 f x).
Proof.
  intros e f x HE HF.
  assert (H : wp (ApplyAffineToU32 e f x) (fun y => y = affine_n 32 f x)).
  { unfold ApplyAffineToU32. apply (wp_apply_common 32); auto; try lia. intros M HM EM. unfold get32FromVec. rewrite (proj1 HM). cbn [Nat.eqb negb].
    eapply wp_mono; [apply (wp_digits 32 32); exact HM|]. intros d ->. rewrite N.mod_small by apply num_lt. apply num_ext. exact EM. }
  destruct (wp_exists _ _ _ H) as (y & E & ->). exact E.
Qed.
Lemma apply_u : forall e n f x, env_ok e -> okaff n f -> 0 < n -> n <= 32 -> ApplyAffineToU e n f x = Ok (affine_n n f x).
Proof.
  intros e n f x HE HF Hn H32.
  assert (H : wp (ApplyAffineToU e n f x) (fun y => y = affine_n n f x)).
  { unfold ApplyAffineToU. apply (wp_apply_common n); auto. intros M HM EM. apply wp_bind.
    eapply wp_mono; [apply (wp_digits n 32); exact HM|]. intros d ->. apply wp_ok.
    rewrite mod_mod_le by exact H32. rewrite N.mod_small by apply num_lt. apply num_ext. exact EM. }
  destruct (wp_exists _ _ _ H) as (y & E & ->). exact E.
Qed.

Lemma affine_inverse : forall n A B v w, inverse_of n A B -> veq n w (fapp n B v) -> forall x,
  veq n (affine_f n A v (affine_f n B w x)) x /\ veq n (affine_f n B w (affine_f n A v x)) x.
Proof.
  intros n A B v w [H1 H2] Hw x. split; unfold affine_f.
  - rewrite Hw, <- fapp_vadd, <- fmul_fapp, H1, fapp_id. intros i _. unfold vadd. rewrite xorb_assoc, xorb_nilpotent. apply xorb_false_r.
  - rewrite fapp_vadd, Hw, <- fmul_fapp, H2, fapp_id. intros i _. unfold vadd. rewrite xorb_assoc, xorb_nilpotent. apply xorb_false_r.
Qed.

(** ** Random invertible matrices *)

Lemma invertible_ext : forall n A B, feq n A B -> invertible n A -> invertible n B.
Proof. intros n A B H [C [H1 H2]]. exists C. split; [rewrite <- H; exact H1|rewrite <- H; exact H2]. Qed.

Lemma wp_draw : forall n e A s (Q : mzd * nat -> Prop), okm n n A -> 0 < n ->
  (forall M, okm n n M -> feq n (bitat M) (drawn n (erand e) s) -> Q (M, draw_pos n s 1)) ->
  wp (RandomMatGf2 e A s) Q.
Proof.
  intros n e A s Q HA Hn HQ. unfold RandomMatGf2. apply (wp_randomize n n); auto. intros M HM EM.
  replace (s + 3 * (n * wwidth n)) with (draw_pos n s 1) by (unfold draw_pos, wwidth; rewrite Nat.mul_1_l; reflexivity).
  apply HQ; [exact HM|]. intros i j Hi Hj. rewrite EM by assumption. rewrite rword_at. destruct (Nat.ltb_spec (j mod 64) 64); [|lia].
  rewrite andb_true_r. reflexivity.
Qed.
Lemma draw_pos_add : forall n s t t', draw_pos n (draw_pos n s t) t' = draw_pos n s (t + t').
Proof. intros. unfold draw_pos. rewrite Nat.mul_add_distr_r. lia. Qed.

(** [t0] draws have been made, the last one is A *)
Lemma wp_random_until : forall n e s0 fuel A t0, 0 < n -> okm n n A ->
  feq n (bitat A) (drawn n (erand e) (draw_pos n s0 t0)) ->
  (forall t, t < t0 -> ~ invertible n (drawn n (erand e) (draw_pos n s0 t))) ->
  wp (random_until fuel e A (draw_pos n s0 (t0 + 1))) (fun o => match o with
    | Some (M, s') => okm n n M /\ exists t, t <= t0 + fuel /\ s' = draw_pos n s0 (t + 1) /\
        first_invertible n (erand e) s0 t /\ feq n (bitat M) (drawn n (erand e) (draw_pos n s0 t))
    | None => forall t, t <= t0 + fuel -> ~ invertible n (drawn n (erand e) (draw_pos n s0 t))
    end).
Proof.
  intros n e s0 fuel. induction fuel as [|fuel IH]; intros A t0 Hn HA EA HP; cbn [random_until]; apply wp_bind;
    (eapply wp_mono; [apply (naive_invertible n); assumption|]); intros b Hb.
  - assert (H : b = true -> first_invertible n (erand e) s0 t0).
    { intros ->. split; [|exact HP]. apply (invertible_ext n (bitat A)); [exact EA|]. apply Hb. reflexivity. }
    destruct b; apply wp_ok.
    + split; [exact HA|]. exists t0. split; [lia|]. split; [reflexivity|]. split; [auto|exact EA].
    + intros t Ht. destruct (Nat.eq_dec t t0) as [->|]; [|apply HP; lia]. intros HI.
      assert (X : false = true); [|discriminate]. apply Hb. apply (invertible_ext n (drawn n (erand e) (draw_pos n s0 t0))); [symmetry; exact EA|exact HI].
  - assert (H : b = true -> first_invertible n (erand e) s0 t0).
    { intros ->. split; [|exact HP]. apply (invertible_ext n (bitat A)); [exact EA|]. apply Hb. reflexivity. }
    destruct b.
    + apply wp_ok. split; [exact HA|]. exists t0. split; [lia|]. split; [reflexivity|]. split; [auto|exact EA].
    + apply wp_bind. apply (wp_draw n); auto. intros M HM EM. rewrite draw_pos_add.
      assert (X : forall t, t < t0 + 1 -> ~ invertible n (drawn n (erand e) (draw_pos n s0 t))).
      { intros t Ht. destruct (Nat.eq_dec t t0) as [->|]; [|apply HP; lia]. intros HI.
        assert (X : false = true); [|discriminate]. apply Hb. apply (invertible_ext n (drawn n (erand e) (draw_pos n s0 t0))); [symmetry; exact EA|exact HI]. }
      eapply wp_mono; [apply (IH M (t0 + 1) Hn HM EM X)|]. intros [[M' s']|].
      * intros (K1 & t & K2 & K3 & K4). split; [exact K1|]. exists t. split; [lia|]. auto.
      * intros K t Ht. apply K. lia.
Qed.

Lemma wp_gen_invertible : forall n e fuel s, 0 < n ->
  wp (GenInvertibleMatGf2 fuel e n n s) (fun o => match o with
    | Some (M, s') => okm n n M /\ exists t, t <= fuel /\ s' = draw_pos n s (t + 1) /\
        first_invertible n (erand e) s t /\ feq n (bitat M) (drawn n (erand e) (draw_pos n s t))
    | None => forall t, t <= fuel -> ~ invertible n (drawn n (erand e) (draw_pos n s t))
    end).
Proof.
  intros n e fuel s Hn. unfold GenInvertibleMatGf2, GenRandomMatGf2. apply wp_bind. apply (wp_draw n); [apply init_ok|exact Hn|].
  intros M HM EM. apply (wp_random_until n e s fuel M 0); auto; [|intros; lia].
  replace (draw_pos n s 0) with s by (unfold draw_pos; lia). exact EM.
Qed.

Lemma wp_gen_affine : forall n e fuel s, env_ok e -> 0 < n -> vsmall n ->
  wp (GenRandomAffineTransform fuel e n s) (fun o => match o with
    | Some (f, g, s') => okaff n f /\ okaff n g /\ inverse_aff n f g /\
        exists t, t <= fuel /\ first_invertible n (erand e) s t /\
          feq n (bitat (alin f)) (drawn n (erand e) (draw_pos n s t)) /\
          (forall i, i < n -> col0 (atrans f) i = N.testbit (word_at (erand e) (draw_pos n s (t + 1) + 3 * i)) 0) /\
          s' = draw_pos n s (t + 1) + 3 * n
    | None => forall t, t <= fuel -> ~ invertible n (drawn n (erand e) (draw_pos n s t))
    end).
Proof.
  intros n e fuel s HE Hn HS. unfold GenRandomAffineTransform. apply wp_bind. apply (wp_draw n); [apply init_ok|exact Hn|].
  intros M HM EM. apply wp_bind.
  eapply wp_mono; [apply (wp_random_until n e s fuel M 0); auto; [|intros; lia]|].
  { replace (draw_pos n s 0) with s by (unfold draw_pos; lia). exact EM. }
  intros [[A s1]|]; [|intros K; apply wp_ok; exact K].
  intros (HA & t & Ht & -> & HF & EA). apply wp_bind. unfold RandomMatGf2. apply (wp_randomize n 1); [apply init_ok|lia|].
  intros v Hv Ev. apply wp_bind. eapply wp_mono; [apply (wp_inv_m4ri n); assumption|]. intros B (HB & _ & _ & HI).
  apply wp_bind. apply (wp_mulv n n); auto. intros w Hw Ew. apply wp_ok.
  assert (HI' : inverse_of n (bitat A) (bitat B)).
  { apply HI. apply (invertible_ext n (drawn n (erand e) (draw_pos n s t))); [symmetry; exact EA|exact (proj1 HF)]. }
  split; [split; assumption|]. split; [split; assumption|]. split.
  - intros x. apply affine_inverse; assumption.
  - exists t. split; [exact Ht|]. split; [exact HF|]. split; [exact EA|]. cbn [alin atrans]. split.
    + intros i Hi. unfold col0. rewrite Ev by lia. rewrite rword_at. cbn [Nat.div Nat.divmod fst Nat.modulo Nat.sub snd Nat.ltb Nat.leb]. rewrite andb_true_r.
      unfold tb. change (wwidth 1) with 1. do 3 f_equal. lia.
    + change (wwidth 1) with 1. lia.
Qed.

Lemma fair_some : forall n e fuel s, env_ok e -> 0 < n -> vsmall n -> s mod 3 = 0 -> fair fuel n (erand e) ->
  wp (GenRandomAffineTransform fuel e n s) (fun o => exists f g s', o = Some (f, g, s') /\ s' mod 3 = 0).
Proof.
  intros n e fuel s HE Hn HS H3 HF. eapply wp_mono; [apply wp_gen_affine; assumption|]. intros [[[f g] s']|].
  - intros (_ & _ & _ & t & _ & _ & _ & _ & ->). exists f, g, (draw_pos n s (t + 1) + 3 * n). split; [reflexivity|].
    unfold draw_pos. replace ((t + 1) * (3 * (n * ((n + 63) / 64)))) with (((t + 1) * (n * ((n + 63) / 64))) * 3) by ring.
    replace (s + (t + 1) * (n * ((n + 63) / 64)) * 3 + 3 * n) with (s + ((t + 1) * (n * ((n + 63) / 64)) + n) * 3) by ring.
    rewrite Nat.mod_add by discriminate. exact H3.
  - intros K. exfalso. destruct (HF s H3) as (t & Ht & HI). exact (K t Ht HI).
Qed.
