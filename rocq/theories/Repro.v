(** The random functions use the seed and the clock readings only. *)
From Coq Require Import Arith NArith List Bool Lia.
From Verif Require Import Base Tables Model Spec Rel.
Import ListNotations.

Definition samep {A} (x y : A * world) : Prop := fst x = fst y /\ same (snd x) (snd y).

Lemma same_reseed : forall s1 s2, same_seed s1 s2 -> same (reseed s1) (reseed s2).
Proof.
  intros s1 s2 [H1 H2]. pose proof (H2 0) as H0. rewrite !Nat.add_0_r in H0.
  unfold reseed, time_null, InitRandom. cbn [w_seed w_idx w_off w_clk w_tick].
  rewrite H1, H0. split; [split|]; cbn; auto.
  intros k. specialize (H2 (S k)). rewrite !Nat.add_succ_r in H2. exact H2.
Qed.
Lemma same_cus : forall s1 s2, same s1 s2 ->
  fst (cus_random s1) = fst (cus_random s2) /\ same (snd (cus_random s1)) (snd (cus_random s2)).
Proof.
  intros s1 s2 [[H1 H2] [H3 H4]]. unfold cus_random. cbn. rewrite H3, H4.
  split; auto. split; [split|]; cbn; rewrite ?H3, ?H4; auto.
Qed.
Lemma same_rand_elem : forall e w old s1 s2, same s1 s2 ->
  samep (rand_elem e w old s1) (rand_elem e w old s2).
Proof.
  intros e w old s1 s2 H. destruct (same_cus s1 s2 H) as [E1 S1].
  destruct (same_cus _ _ S1) as [E2 S2].
  destruct w; unfold rand_elem, rand64, samep;
    destruct (cus_random s1) as [a1 t1], (cus_random s2) as [a2 t2]; cbn [fst snd] in *; subst; auto;
    destruct (cus_random t1) as [b1 u1], (cus_random t2) as [b2 u2]; cbn [fst snd] in *; subst; auto.
Qed.

Lemma same_randM : forall e w m s1 s2, same_seed s1 s2 ->
  rp (randM e w m s1) (randM e w m s2) samep.
Proof.
  intros e w m s1 s2 H. unfold randM.
  apply rp_for_up; [split; [auto|apply same_reseed; auto]|]. intros i x y _ _ Hxy.
  apply rp_for_up; auto. intros k [m1 t1] [m2 t2] _ _ [E S]. cbn [fst snd] in *. subst m2.
  apply rp_eq; auto. intros old _. pose proof (same_rand_elem e w old t1 t2 S) as [E1 S1].
  destruct (rand_elem e w old t1), (rand_elem e w old t2). cbn [fst snd] in *. subst.
  apply rp_eq; auto. intros m' _. split; auto.
Qed.
Lemma same_randV_gen : forall e w v s1 s2, same s1 s2 \/ (w <> W64 /\ same_seed s1 s2) ->
  rp (randV e w v s1) (randV e w v s2) samep.
Proof.
  intros e w v s1 s2 H. unfold randV. apply rp_for_up.
  - split; auto. cbn [fst snd]. destruct H as [H|[Hw H]].
    + destruct w; try exact H; apply same_reseed; apply H.
    + destruct w; try (apply same_reseed; auto); contradiction.
  - intros k [m1 t1] [m2 t2] _ _ [E S]. cbn [fst snd] in *. subst m2.
    apply rp_eq; auto. intros old _. pose proof (same_rand_elem e w old t1 t2 S) as [E1 S1].
    destruct (rand_elem e w old t1), (rand_elem e w old t2). cbn [fst snd] in *. subst.
    apply rp_eq; auto. intros m' _. split; auto.
Qed.

Lemma same_repair : forall w b i g s1 s2, same s1 s2 ->
  rp (g_repair w b i g s1) (g_repair w b i g s2) samep.
Proof.
  intros w b i g s1 s2 H. unfold g_repair. destruct (same_cus s1 s2 H) as [E1 S1].
  destruct (cus_random s1) as [a1 t1], (cus_random s2) as [a2 t2]. cbn [fst snd] in *. subst a2.
  apply rp_eq; auto. intros r _. apply rp_eq; auto. intros g1 _.
  apply rp_for_up; [split; auto|]. intros t [x1 u1] [x2 u2] _ _ [E S]. cbn [fst snd] in *. subst x2.
  destruct (same_cus u1 u2 S) as [E2 S2].
  destruct (cus_random u1) as [b1 v1], (cus_random u2) as [b2 v2]. cbn [fst snd] in *. subst b2.
  apply rp_eq; auto. intros r' _. destruct (N.eqb r' 0); [split; auto|].
  apply rp_eq; auto. intros g' _. split; auto.
Qed.
Lemma same_forward : forall w g s1 s2, same s1 s2 ->
  rp (g_forward w (g, s1)) (g_forward w (g, s2)) samep.
Proof.
  intros w g s1 s2 H. unfold g_forward. apply rp_for_up; [split; auto|].
  intros b x y _ _ Hxy. apply rp_for_up; auto.
  intros i [g1 t1] [g2 t2] _ _ [E S]. cbn [fst snd] in *. subst g2.
  apply rp_eq; auto. intros [|] _.
  - apply rp_eq; auto. intros g' _. split; auto.
  - apply rp_eq; auto. intros [j|] _.
    + apply rp_eq; auto. intros g' _. apply rp_eq; auto. intros g2 _. split; auto.
    + cbv zeta. destruct (_ && _)%bool; [split; auto|]. apply same_repair; auto.
Qed.
Lemma same_genMatpair : forall e w m v s1 s2, same_seed s1 s2 ->
  rp (genMatpair e w m v s1) (genMatpair e w m v s2) samep.
Proof.
  intros e w m v s1 s2 H. unfold genMatpair.
  eapply rp_bind with (S := fun x y => samep (fst x) (fst y)); [|intros x y Hxy; exact Hxy].
  unfold genMatpair_trail. cbv zeta. apply rp_eq; auto. intros m0 _. apply rp_eq; auto. intros v0 _.
  eapply rp_bind; [apply same_randM; apply same_reseed; auto|].
  intros [t1 r1] [t2 r2] [E S]. cbn [fst snd] in *. subst t2.
  apply rp_eq; auto. intros res _. eapply rp_bind; [apply same_forward; exact S|].
  intros [g1 u1] [g2 u2] [E2 S2]. cbn [fst snd] in *. subst g2.
  destruct (g_inv g1).
  - apply rp_eq; auto. intros mv _. apply rp_eq; auto. intros m1 _. split; auto.
  - apply rp_eq; auto. intros g' _. apply rp_eq; auto. intros m1 _. split; auto.
Qed.
Lemma same_genaffinepair : forall e w f g s1 s2, same_seed s1 s2 ->
  rp (genaffinepair e w f g s1) (genaffinepair e w f g s2) samep.
Proof.
  intros e w f g s1 s2 H. unfold genaffinepair. eapply rp_bind; [apply same_genMatpair; auto|].
  intros [[m1 v1] t1] [[m2 v2] t2] [E S]. cbn [fst snd] in *. injection E as <- <-.
  eapply rp_bind; [apply same_randV_gen; left; exact S|].
  intros [c1 u1] [c2 u2] [E2 S2]. cbn [fst snd] in *. subst c2.
  apply rp_eq; auto. intros d _. split; auto.
Qed.
