(** Final form of the property C46.  tools/gen_props.py copies the statements (names
    without the suffix _main) to Properties6.v. *)
From Coq Require Import Arith NArith List Bool Lia.
From Verif Require Import Base Tables Model Spec LinAlg Mem Cons Rand Qpr Check ModelGen SpecGen Gen.
Import ListNotations.

(** the seed passed to InitRandom by a call of randM in world s *)
Definition seed_arg (s : world) : N := N.lxor (w_seed s) (u32 (w_clk s (w_tick s))).
Lemma reseed_idx : forall s,
  w_idx (reseed s) = permuteQPR (u32 (permuteQPR (seed_arg s) + 0x682f0161)).
Proof. reflexivity. Qed.
Lemma seed_arg_idx : forall s t, (w_seed s < 2 ^ 32)%N -> (w_seed t < 2 ^ 32)%N ->
  w_idx (reseed s) = w_idx (reseed t) -> seed_arg s = seed_arg t.
Proof.
  intros s t Hs Ht H. rewrite !reseed_idx in H.
  assert (B : forall x, (w_seed x < 2 ^ 32)%N -> (seed_arg x < 2 ^ 32)%N).
  { intros x Hx. unfold seed_arg. apply lxor_bound; auto. apply u32_lt. }
  apply permuteQPR_inj in H; try apply u32_lt.
  apply u32_add_inj in H; auto using permuteQPR_bound. apply permuteQPR_inj in H; auto.
Qed.
Lemma nth_draw_world : forall e w k t0 s m s', typedM w t0 -> (w_seed s < 2 ^ 32)%N ->
  nth_draw e w k t0 s = Ok (m, s') ->
  wfM w m /\ exists t, w_seed t = u32 (w_seed s + N.of_nat k) /\ w_clk t = w_clk s /\ w_tick t = w_tick s + k /\
    s' = adv (reseed t) (draws w * (dim w * nw w)).
Proof.
  intros e w. induction k as [|k IH]; intros t0 s m s' Ht Hs E.
  - cbn [nth_draw] in E. rewrite randM_ok in E by auto. injection E as <- <-.
    split; [apply wf_rand|]. exists s. split; [|auto using Nat.add_0_r].
    unfold u32. rewrite N.add_0_r, N.mod_small; auto.
  - cbn [nth_draw] in E. destruct (nth_draw e w k t0 s) as [[m1 s1]|] eqn:E1; [|discriminate].
    cbn [bind] in E. destruct (IH _ _ _ _ Ht Hs E1) as (Wm & t & T1 & T2 & T3 & ->).
    rewrite randM_ok in E by auto using wfM_typed. injection E as <- <-.
    split; [apply wf_rand|]. eexists. split; [|split; [|split; [|reflexivity]]].
    + destruct (adv_clock (reseed t) (draws w * (dim w * nw w))) as (A & _). rewrite A.
      change (w_seed (reseed t)) with (u32 (w_seed t + 1)). rewrite T1. unfold u32.
      rewrite N.add_mod_idemp_l by discriminate. f_equal. lia.
    + destruct (adv_clock (reseed t) (draws w * (dim w * nw w))) as (_ & _ & A). rewrite A. exact T2.
    + destruct (adv_clock (reseed t) (draws w * (dim w * nw w))) as (_ & A & _). rewrite A.
      change (w_tick (reseed t)) with (S (w_tick t)). lia.
Qed.

(** C46: calls number j and k of randM that read the same time, less than 2^32 calls apart,
    leave the generator at different positions of its stream. *)
Lemma C46_same_second_main : forall e w t0 s j k mj sj mk sk, typedM w t0 -> (w_seed s < 2 ^ 32)%N ->
  j < k -> (N.of_nat k - N.of_nat j < 2 ^ 32)%N ->
  u32 (w_clk s (w_tick s + j)) = u32 (w_clk s (w_tick s + k)) ->
  nth_draw e w j t0 s = Ok (mj, sj) -> nth_draw e w k t0 s = Ok (mk, sk) ->
  w_idx sj <> w_idx sk.
Proof.
  intros e w t0 s j k mj sj mk sk Ht Hs Hjk Hd Hc Ej Ek.
  destruct (nth_draw_world _ _ _ _ _ _ _ Ht Hs Ej) as (_ & t & T1 & T2 & T3 & ->).
  destruct (nth_draw_world _ _ _ _ _ _ _ Ht Hs Ek) as (_ & u & U1 & U2 & U3 & ->).
  assert (I : forall x, (w_idx (reseed x) < 2 ^ 32)%N).
  { intros x. rewrite reseed_idx. apply permuteQPR_bound, u32_lt. }
  destruct (adv_fields (reseed t) (draws w * (dim w * nw w)) (I t)) as (A & _).
  destruct (adv_fields (reseed u) (draws w * (dim w * nw w)) (I u)) as (B & _).
  rewrite A, B. intros E. apply u32_add_inj in E; auto.
  apply seed_arg_idx in E; [|rewrite T1; apply u32_lt|rewrite U1; apply u32_lt].
  unfold seed_arg in E. rewrite T1, U1, T2, U2, T3, U3, Hc in E.
  apply (f_equal (fun z => N.lxor z (u32 (w_clk s (w_tick s + k))))) in E.
  rewrite !N.lxor_assoc, N.lxor_nilpotent, !N.lxor_0_r in E.
  unfold u32 in E. change (2 ^ 32)%N with 4294967296%N in *.
  rewrite !(N.add_comm (w_seed s)) in E.
  pose proof (N.div_mod (N.of_nat j + w_seed s) 4294967296 ltac:(discriminate)) as D1.
  pose proof (N.div_mod (N.of_nat k + w_seed s) 4294967296 ltac:(discriminate)) as D2.
  rewrite E in D1. revert D1 D2.
  generalize ((N.of_nat j + w_seed s) / 4294967296)%N, ((N.of_nat k + w_seed s) / 4294967296)%N,
    ((N.of_nat k + w_seed s) mod 4294967296)%N. intros a b c D1 D2. lia.
Qed.

Example C46_ex_main : typedM W4 (zeros W4) /\
  (exists x y, nth_draw LE W4 0 (zeros W4) (mkworld 5 0 0 (fun _ => 7%N) 0) = Ok (x, y) /\ w_idx y = 1729565361%N) /\
  (exists x y, nth_draw LE W4 1 (zeros W4) (mkworld 5 0 0 (fun _ => 7%N) 0) = Ok (x, y) /\ w_idx y <> 1729565361%N).
Proof.
  split; [apply mat_ofb_ok; reflexivity|].
  split; eexists; eexists; (split; [vm_compute; reflexivity|]); vm_compute; [reflexivity|discriminate].
Qed.
