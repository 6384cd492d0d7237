(** The results of the random functions are determined by one or two 32-bit numbers. *)
From Coq Require Import Arith NArith List Bool Lia FinFun.
From Verif Require Import Base Tables Model Spec LinAlg Mem Cons Mul Rand Rel GenPair Affine Main1 Main2.
Import ListNotations.

(** ** Only m_index and m_intermediateOffset matter between two calls of InitRandom *)
Definition gsame (s1 s2 : world) : Prop := w_idx s1 = w_idx s2 /\ w_off s1 = w_off s2.
Definition gsamep {A} (x y : A * world) : Prop := fst x = fst y /\ gsame (snd x) (snd y).

Lemma gsame_cus : forall s1 s2, gsame s1 s2 ->
  fst (cus_random s1) = fst (cus_random s2) /\ gsame (snd (cus_random s1)) (snd (cus_random s2)).
Proof.
  intros s1 s2 [H3 H4]. unfold cus_random. cbn. rewrite H3, H4.
  split; auto. split; cbn; rewrite ?H3, ?H4; auto.
Qed.
Lemma gsame_rand_elem : forall e w old s1 s2, gsame s1 s2 ->
  gsamep (rand_elem e w old s1) (rand_elem e w old s2).
Proof.
  intros e w old s1 s2 H. destruct (gsame_cus s1 s2 H) as [E1 S1].
  destruct (gsame_cus _ _ S1) as [E2 S2].
  destruct w; unfold rand_elem, rand64, gsamep;
    destruct (cus_random s1) as [a1 t1], (cus_random s2) as [a2 t2]; cbn [fst snd] in *; subst; auto;
    destruct (cus_random t1) as [b1 u1], (cus_random t2) as [b2 u2]; cbn [fst snd] in *; subst; auto.
Qed.
Lemma gsame_randM : forall e w m s1 s2, gsame (reseed s1) (reseed s2) ->
  rp (randM e w m s1) (randM e w m s2) gsamep.
Proof.
  intros e w m s1 s2 H. unfold randM.
  apply rp_for_up; [split; auto|]. intros i x y _ _ Hxy.
  apply rp_for_up; auto. intros k [m1 t1] [m2 t2] _ _ [E S]. cbn [fst snd] in *. subst m2.
  apply rp_eq; auto. intros old _. pose proof (gsame_rand_elem e w old t1 t2 S) as [E1 S1].
  destruct (rand_elem e w old t1), (rand_elem e w old t2). cbn [fst snd] in *. subst.
  apply rp_eq; auto. intros m' _. split; auto.
Qed.
Lemma gsame_randV : forall e w v s1 s2,
  gsame (match w with W64 => s1 | _ => reseed s1 end) (match w with W64 => s2 | _ => reseed s2 end) ->
  rp (randV e w v s1) (randV e w v s2) gsamep.
Proof.
  intros e w v s1 s2 H. unfold randV. apply rp_for_up.
  - split; auto.
  - intros k [m1 t1] [m2 t2] _ _ [E S]. cbn [fst snd] in *. subst m2.
    apply rp_eq; auto. intros old _. pose proof (gsame_rand_elem e w old t1 t2 S) as [E1 S1].
    destruct (rand_elem e w old t1), (rand_elem e w old t2). cbn [fst snd] in *. subst.
    apply rp_eq; auto. intros m' _. split; auto.
Qed.
Lemma gsame_repair : forall w b i g s1 s2, gsame s1 s2 ->
  rp (g_repair w b i g s1) (g_repair w b i g s2) gsamep.
Proof.
  intros w b i g s1 s2 H. unfold g_repair. destruct (gsame_cus s1 s2 H) as [E1 S1].
  destruct (cus_random s1) as [a1 t1], (cus_random s2) as [a2 t2]. cbn [fst snd] in *. subst a2.
  apply rp_eq; auto. intros r _. apply rp_eq; auto. intros g1 _.
  apply rp_for_up; [split; auto|]. intros t [x1 u1] [x2 u2] _ _ [E S]. cbn [fst snd] in *. subst x2.
  destruct (gsame_cus u1 u2 S) as [E2 S2].
  destruct (cus_random u1) as [b1 v1], (cus_random u2) as [b2 v2]. cbn [fst snd] in *. subst b2.
  apply rp_eq; auto. intros r' _. destruct (N.eqb r' 0); [split; auto|].
  apply rp_eq; auto. intros g' _. split; auto.
Qed.
Lemma gsame_forward : forall w g s1 s2, gsame s1 s2 ->
  rp (g_forward w (g, s1)) (g_forward w (g, s2)) gsamep.
Proof.
  intros w g s1 s2 H. unfold g_forward. apply rp_for_up; [split; auto|].
  intros b x y _ _ Hxy. apply rp_for_up; auto.
  intros i [g1 t1] [g2 t2] _ _ [E S]. cbn [fst snd] in *. subst g2.
  apply rp_eq; auto. intros [|] _.
  - apply rp_eq; auto. intros g' _. split; auto.
  - apply rp_eq; auto. intros [j|] _.
    + apply rp_eq; auto. intros g' _. apply rp_eq; auto. intros g2 _. split; auto.
    + cbv zeta. destruct (_ && _)%bool; [split; auto|]. apply gsame_repair; auto.
Qed.

(** the seed and the clock move in step, the clock readings themselves are free *)
Definition step1 (s : world) (t : world) : Prop :=
  w_seed t = u32 (w_seed s + 1) /\ w_clk t = w_clk s /\ w_tick t = S (w_tick s).
Lemma reseed_step : forall s, step1 s (reseed s).
Proof. intros s. repeat split. Qed.

Definition tsame (s1 s2 : world) (t1 t2 : world) : Prop :=
  (w_seed t1 = w_seed s1 /\ w_clk t1 = w_clk s1 /\ w_tick t1 = w_tick s1) /\
  (w_seed t2 = w_seed s2 /\ w_clk t2 = w_clk s2 /\ w_tick t2 = w_tick s2).

Lemma u32_lt : forall x, (u32 x < 2 ^ 32)%N.
Proof. intros x. apply N.mod_lt. discriminate. Qed.
Lemma u32_id : forall x, (x < 2 ^ 32)%N -> u32 x = x.
Proof. intros x H. apply N.mod_small. exact H. Qed.
Lemma lxor_lt : forall x y, (x < 2 ^ 32)%N -> (y < 2 ^ 32)%N -> (N.lxor x y < 2 ^ 32)%N.
Proof.
  intros x y Hx Hy. apply (bits_bound _ 32). intros k Hk. rewrite N.lxor_spec.
  rewrite (testbit_high x 32), (testbit_high y 32) by auto. reflexivity.
Qed.

(** the two (three) numbers *)
Definition key0 (s : world) : N := N.lxor (w_seed s) (u32 (w_clk s (w_tick s))).
Definition key1 (s : world) : N := N.lxor (u32 (w_seed s + 1)) (u32 (w_clk s (S (w_tick s)))).
Definition key2 (s : world) : N :=
  N.lxor (u32 (u32 (w_seed s + 1) + 1)) (u32 (w_clk s (S (S (w_tick s))))).

(** a world with given keys *)
Definition cw (x0 x1 x2 : N) : world :=
  mkworld 0 0 0 (fun k => match k with 0 => x0 | 1 => N.lxor 1 x1 | _ => N.lxor 2 x2 end) 0.
Lemma cw_keys : forall x0 x1 x2, (x0 < 2 ^ 32)%N -> (x1 < 2 ^ 32)%N -> (x2 < 2 ^ 32)%N ->
  key0 (cw x0 x1 x2) = x0 /\ key1 (cw x0 x1 x2) = x1 /\ key2 (cw x0 x1 x2) = x2.
Proof.
  intros x0 x1 x2 H0 H1 H2. unfold key0, key1, key2, cw. cbn [w_seed w_clk w_tick].
  rewrite (u32_id x0), (u32_id (N.lxor 1 x1)), (u32_id (N.lxor 2 x2)) by (auto; apply lxor_lt; auto; reflexivity).
  change (u32 (0 + 1)) with 1%N. change (u32 (1 + 1)) with 2%N.
  rewrite <- !N.lxor_assoc, !N.lxor_nilpotent, !N.lxor_0_l. auto.
Qed.

Lemma reseed_gsame : forall s1 s2, key0 s1 = key0 s2 -> gsame (reseed s1) (reseed s2).
Proof.
  intros s1 s2 H. unfold reseed, time_null, InitRandom, gsame, key0 in *. cbn [w_seed w_idx w_off w_clk w_tick] in *.
  rewrite H. auto.
Qed.
Lemma key0_reseed : forall s, key0 (reseed s) = key1 s.
Proof. reflexivity. Qed.
Lemma key1_reseed : forall s, key1 (reseed s) = key2 s.
Proof. reflexivity. Qed.

(** seed, clock and number of readings are not changed by drawing *)
Definition kept (s t : world) : Prop := w_seed t = w_seed s /\ w_clk t = w_clk s /\ w_tick t = w_tick s.
Lemma kept_refl : forall s, kept s s.
Proof. intros s. repeat split. Qed.
Lemma kept_cus : forall s t, kept s t -> kept s (snd (cus_random t)).
Proof. intros s t (A & B & C). repeat split; auto. Qed.
Lemma kept_key : forall s t, kept s t -> key0 t = key0 s.
Proof. intros s t (A & B & C). unfold key0. rewrite A, B, C. reflexivity. Qed.
Lemma kept_adv : forall s k, kept s (adv s k).
Proof. intros s k. induction k; [apply kept_refl|]. rewrite adv_S. apply kept_cus; auto. Qed.

Definition keptp {A} (s : world) (x : A * world) : Prop := kept s (snd x).
Definition okp {A} (r : res A) (Q : A -> Prop) : Prop := match r with Ok a => Q a | UB => True end.
Lemma okp_bind : forall A B (c : res A) (k : A -> res B) Q, (forall a, c = Ok a -> okp (k a) Q) -> okp (bind c k) Q.
Proof. intros A B [a|] k Q H; simpl; auto. Qed.
Lemma okp_for_up : forall St (I : St -> Prop) b lo hi s, I s ->
  (forall i x, I x -> okp (b i x) I) -> okp (for_up lo hi b s) I.
Proof.
  intros St I b lo hi. unfold for_up. generalize (hi - lo) as k. intros k. revert lo.
  induction k as [|k IH]; intros lo s H HB; simpl; auto.
  apply okp_bind. intros a E. apply IH; auto. specialize (HB lo s H). rewrite E in HB. exact HB.
Qed.
Lemma kept_forward : forall w g s, okp (g_forward w (g, s)) (keptp s).
Proof.
  intros w g s. unfold g_forward. apply okp_for_up; [apply kept_refl|].
  intros b x Hx. apply okp_for_up; auto. clear x Hx. intros i [g1 t1] Hk. cbv beta iota.
  apply okp_bind. intros [|] _.
  - apply okp_bind. intros g' _. exact Hk.
  - apply okp_bind. intros [j|] _.
    + apply okp_bind. intros g' _. apply okp_bind. intros g2 _. exact Hk.
    + cbv zeta. destruct (_ && _)%bool; [exact Hk|].
      unfold g_repair. pose proof (kept_cus _ _ Hk) as K1. cbn [snd] in K1.
      destruct (cus_random t1) as [a1 u1]. cbn [snd] in K1.
      apply okp_bind. intros r _. apply okp_bind. intros g2 _.
      apply okp_for_up; [exact K1|]. intros q [x1 u2] Hq. 
      pose proof (kept_cus _ _ Hq) as K2. cbn [snd] in K2.
      destruct (cus_random u2) as [a2 u3]. cbn [snd] in K2.
      apply okp_bind. intros r' _. destruct (N.eqb r' 0); [exact K2|].
      apply okp_bind. intros g' _. exact K2.
Qed.

(** ** genMatpair *)
Definition gsame_after {A} (s1 s2 : world) (x y : A * world) : Prop :=
  fst x = fst y /\ gsame (snd x) (snd y) /\
  kept (reseed (reseed s1)) (snd x) /\ kept (reseed (reseed s2)) (snd y).

Lemma rp_and : forall A (c1 c2 : res A) R (Q1 Q2 : A -> Prop), rp c1 c2 R -> okp c1 Q1 -> okp c2 Q2 ->
  rp c1 c2 (fun x y => R x y /\ Q1 x /\ Q2 y).
Proof. intros A [a|] [b|] R Q1 Q2 H H1 H2; simpl in *; auto. Qed.

Lemma gsame_genMatpair : forall e w m v s1 s2, key1 s1 = key1 s2 ->
  rp (genMatpair e w m v s1) (genMatpair e w m v s2) (gsame_after s1 s2).
Proof.
  intros e w m v s1 s2 H. unfold genMatpair.
  eapply rp_bind with (S := fun x y => gsame_after s1 s2 (fst x) (fst y)); [|intros x y Hxy; exact Hxy].
  unfold genMatpair_trail. cbv zeta. apply rp_eq; auto. intros m0 _. apply rp_eq; auto. intros v0 _.
  rewrite !randM_ok by apply typed_fresh_m. cbn [bind].
  assert (G : gsame (reseed (reseed s1)) (reseed (reseed s2))) by (apply reseed_gsame; exact H).
  pose proof (gsame_randM e w (fresh_m w) (reseed s1) (reseed s2) G) as R.
  rewrite !randM_ok in R by apply typed_fresh_m. destruct R as [E S]. cbn [fst snd] in E, S. rewrite <- E.
  apply rp_eq; auto. intros res _.
  eapply rp_bind; [apply rp_and; [apply gsame_forward; exact S|apply kept_forward|apply kept_forward]|].
  intros [g1 u1] [g2 u2] ([E2 S2] & K1 & K2). unfold keptp in *. cbn [fst snd] in *. subst g2.
  assert (K1' : kept (reseed (reseed s1)) u1).
  { destruct (kept_adv (reseed (reseed s1)) (draws w * (dim w * nw w))) as (A & B & C).
    destruct K1 as (A' & B' & C'). repeat split; congruence. }
  assert (K2' : kept (reseed (reseed s2)) u2).
  { destruct (kept_adv (reseed (reseed s2)) (draws w * (dim w * nw w))) as (A & B & C).
    destruct K2 as (A' & B' & C'). repeat split; congruence. }
  destruct (g_inv g1).
  - apply rp_eq; auto. intros mv _. apply rp_eq; auto. intros m1 _. repeat (split; auto); apply K1' || apply K2'.
  - apply rp_eq; auto. intros g' _. apply rp_eq; auto. intros m1 _. repeat (split; auto); apply K1' || apply K2'.
Qed.

(** ** Affine pairs *)
Lemma gsame_genaffinepair : forall e w f g s1 s2, key1 s1 = key1 s2 -> key2 s1 = key2 s2 ->
  rp (genaffinepair e w f g s1) (genaffinepair e w f g s2) (fun x y => fst x = fst y).
Proof.
  intros e w f g s1 s2 H1 H2. unfold genaffinepair. eapply rp_bind; [apply gsame_genMatpair; exact H1|].
  intros [[m1 v1] t1] [[m2 v2] t2] (E & S & K1 & K2). cbn [fst snd] in *. injection E as <- <-.
  eapply rp_bind; [apply gsame_randV|].
  - assert (R : gsame (reseed t1) (reseed t2)).
    { apply reseed_gsame. rewrite (kept_key _ _ K1), (kept_key _ _ K2), !key0_reseed, !key1_reseed. exact H2. }
    destruct w; auto.
  - intros [c1 u1] [c2 u2] [E2 S2]. cbn [fst snd] in *. subst c2.
    apply rp_eq; auto. intros d _. reflexivity.
Qed.

(** ** The results as functions of the keys *)
Definition resM (e : endian) (w : width) (x : N) : mat :=
  match randM e w (fresh_m w) (cw x 0 0) with Ok (a, _) => a | UB => [] end.
Definition resP (e : endian) (w : width) (x : N) : mat * mat :=
  match genMatpair e w (fresh_m w) (fresh_m w) (cw 0 x 0) with Ok (a, _) => a | UB => ([], []) end.
Definition fresh_a (w : width) : aff := mkaff (fresh_m w) (mkv w (fun _ => 0%N)).
Definition resA (e : endian) (w : width) (x y : N) : aff * aff :=
  match genaffinepair e w (fresh_a w) (fresh_a w) (cw 0 x y) with Ok (a, _) => a
  | UB => (fresh_a w, fresh_a w) end.

Lemma key0_lt : forall s, (w_seed s < 2 ^ 32)%N -> (key0 s < 2 ^ 32)%N.
Proof. intros s H. apply lxor_lt; auto using u32_lt. Qed.
Lemma key1_lt : forall s, (key1 s < 2 ^ 32)%N.
Proof. intros s. apply lxor_lt; auto using u32_lt. Qed.
Lemma key2_lt : forall s, (key2 s < 2 ^ 32)%N.
Proof. intros s. apply lxor_lt; auto using u32_lt. Qed.

Lemma resM_spec : forall e w m s r s', typedM w m -> (w_seed s < 2 ^ 32)%N ->
  randM e w m s = Ok (r, s') -> r = resM e w (key0 s).
Proof.
  intros e w m s r s' Hm Hs E. unfold resM.
  pose proof (gsame_randM e w (fresh_m w) s (cw (key0 s) 0 0)) as R.
  rewrite randM_ok in E by auto. injection E as <- _.
  rewrite !randM_ok in R by apply typed_fresh_m. rewrite randM_ok by apply typed_fresh_m.
  apply R. apply reseed_gsame. symmetry. apply cw_keys; auto using key0_lt; reflexivity.
Qed.
Lemma resP_spec : forall e w m v s r s', shapeM w m -> shapeM w v ->
  genMatpair e w m v s = Ok (r, s') -> r = resP e w (key1 s).
Proof.
  intros e w m v s r s' Hm Hv E. unfold resP.
  rewrite (genMatpair_old e w m v (fresh_m w) (fresh_m w)) in E by auto using shape_fresh_m.
  assert (K : key1 s = key1 (cw 0 (key1 s) 0)).
  { symmetry. apply cw_keys; auto using key1_lt; reflexivity. }
  pose proof (gsame_genMatpair e w (fresh_m w) (fresh_m w) s (cw 0 (key1 s) 0) K) as R.
  rewrite E in R. destruct (genMatpair e w (fresh_m w) (fresh_m w) (cw 0 (key1 s) 0)) as [[r2 t]|]; [|contradiction R].
  apply R.
Qed.
Lemma affine_old : forall e w f g f2 g2 s,
  shapeM w (amat f) -> typedV w (avec f) -> shapeA w g ->
  shapeM w (amat f2) -> typedV w (avec f2) -> shapeA w g2 ->
  genaffinepair e w f g s = genaffinepair e w f2 g2 s.
Proof.
  intros e w f g f2 g2 s Hf Hv [Hg1 Hg2] Hf2 Hv2 [Hg3 Hg4]. unfold genaffinepair.
  rewrite (genMatpair_old e w (amat f) (amat g) (amat f2) (amat g2)) by auto.
  destruct (wp_exists _ _ _ (genMatpair_wp e w (amat f2) (amat g2) s Hf2 Hg3)) as ([[m v] t] & -> & W1 & W2 & _).
  cbn [bind]. rewrite !randV_ok by auto. cbn [bind].
  set (c := mkv w _). assert (Hc : wfV w c) by apply wf_randv.
  destruct (mulv_spec e w v c (avec g) W2 Hc Hg2) as (r1 & -> & R1 & B1).
  destruct (mulv_spec e w v c (avec g2) W2 Hc Hg4) as (r2 & -> & R2 & B2).
  replace r2 with r1; [reflexivity|]. apply (vbit_ext w); auto. rewrite B1, B2. reflexivity.
Qed.
Lemma resA_spec : forall e w f g s r s', shapeM w (amat f) -> typedV w (avec f) -> shapeA w g ->
  genaffinepair e w f g s = Ok (r, s') -> r = resA e w (key1 s) (key2 s).
Proof.
  intros e w f g s r s' Hf Hv Hg E. unfold resA.
  assert (T : typedV w (avec (fresh_a w))).
  { apply wfV_typed. apply mkv_bound. intros. apply N.neq_0_lt_0, N.pow_nonzero. discriminate. }
  rewrite (affine_old e w f g (fresh_a w) (fresh_a w)) in E by
    (auto; try exact (shape_fresh_m w); exact (conj (shape_fresh_m w) (typedV_shape _ _ T))).
  destruct (cw_keys 0 (key1 s) (key2 s) eq_refl (key1_lt s) (key2_lt s)) as (_ & K1 & K2).
  pose proof (gsame_genaffinepair e w (fresh_a w) (fresh_a w) s (cw 0 (key1 s) (key2 s)) (eq_sym K1) (eq_sym K2)) as R.
  rewrite E in R. destruct (genaffinepair e w (fresh_a w) (fresh_a w) (cw 0 (key1 s) (key2 s))) as [[r2 t]|]; [exact R|contradiction R].
Qed.

(** ** Counting *)
Definition range (n : N) : list N := map N.of_nat (seq 0 (N.to_nat n)).
Lemma range_in : forall n x, (x < n)%N -> In x (range n).
Proof.
  intros n x H. unfold range. apply in_map_iff. exists (N.to_nat x). split; [apply N2Nat.id|].
  apply in_seq. lia.
Qed.
Lemma range_len : forall n, N.of_nat (length (range n)) = n.
Proof. intros n. unfold range. rewrite map_length, seq_length. apply N2Nat.id. Qed.
Lemma range_nodup : forall n, NoDup (range n).
Proof. intros n. apply Injective_map_NoDup; [intros a b; apply Nat2N.inj|apply seq_NoDup]. Qed.
Lemma in_range : forall n x, In x (range n) -> (x < n)%N.
Proof. intros n x H. apply in_map_iff in H as (k & <- & H). apply in_seq in H. lia. Qed.
Global Opaque range.

Lemma count_image : forall A (F : N -> A) n (L : list A), NoDup L ->
  (forall a, In a L -> exists x, (x < n)%N /\ a = F x) -> (N.of_nat (length L) <= n)%N.
Proof.
  intros A F n L HN H. rewrite <- (range_len n).
  assert (length L <= length (map F (range n))).
  { apply NoDup_incl_length; auto. intros a Ha. destruct (H a Ha) as (x & Hx & ->).
    apply in_map, range_in, Hx. }
  rewrite map_length in H0. lia.
Qed.
Lemma count_image2 : forall A (F : N -> N -> A) n (L : list A), NoDup L -> (0 < n)%N ->
  (forall a, In a L -> exists x y, (x < n)%N /\ (y < n)%N /\ a = F x y) -> (N.of_nat (length L) <= n * n)%N.
Proof.
  intros A F n L HN Hn H. apply (count_image A (fun z => F (z / n)%N (z mod n)%N)); auto.
  intros a Ha. destruct (H a Ha) as (x & y & Hx & Hy & ->). exists (n * x + y)%N. split; [nia|].
  replace ((n * x + y) / n)%N with x by (apply (N.div_unique _ _ _ y); lia).
  replace ((n * x + y) mod n)%N with y by (apply (N.mod_unique _ _ x y); lia). reflexivity.
Qed.

(** ** More than 2^32 invertible matrices *)
Lemma missing : forall A (dec : forall a b : A, {a = b} + {a <> b}) (L K : list A), NoDup L ->
  length K < length L -> exists a, In a L /\ ~ In a K.
Proof.
  intros A dec L K HN HL.
  assert (D : forall L', (exists a, In a L' /\ ~ In a K) \/ incl L' K).
  { induction L' as [|a l IH]; [right; intros x []|].
    destruct (in_dec dec a K) as [Ha|Ha]; [|left; exists a; split; [left; auto|auto]].
    destruct IH as [(b & B1 & B2)|IH]; [left; exists b; split; [right; auto|auto]|].
    right. intros x [<-|Hx]; auto. }
  destruct (D L) as [H|H]; [exact H|]. pose proof (NoDup_incl_length HN H). lia.
Qed.

Definition lowpart (c : N) : fmat := fun i j =>
  (Nat.leb 4 i && Nat.ltb i 8 && Nat.ltb j 4 && N.testbit c (N.of_nat (4 * (i - 4) + j)))%bool.
Definition uppart (c : N) : fmat := fun i j =>
  (Nat.ltb i 4 && Nat.leb 4 j && Nat.ltb j 8 && N.testbit c (N.of_nat (16 + 4 * i + (j - 4))))%bool.
Definition lowU (c : N) : fmat := fadd fid (lowpart c).
Definition uppU (c : N) : fmat := fadd fid (uppart c).
Definition famU (n : nat) (c : N) : fmat := fmul n (lowU c) (uppU c).

Lemma invol_unip : forall n A, feq n (fmul n A A) fzero -> feq n (fmul n (fadd fid A) (fadd fid A)) fid.
Proof.
  intros n A H. rewrite fmul_fadd_l, !fmul_fadd_r, H, fmul_id_l, fmul_id_l, fmul_id_r.
  intros i j _ _. unfold fadd, fzero. destruct (fid i j), (A i j); reflexivity.
Qed.
Lemma low_nil : forall n c, feq n (fmul n (lowpart c) (lowpart c)) fzero.
Proof.
  intros n c i j _ _. apply xsum_false. intros k _. unfold lowpart.
  destruct (Nat.ltb_spec k 4), (Nat.leb_spec 4 k); try lia; rewrite ?andb_false_r; reflexivity.
Qed.
Lemma upp_nil : forall n c, feq n (fmul n (uppart c) (uppart c)) fzero.
Proof.
  intros n c i j _ _. apply xsum_false. intros k _. unfold uppart.
  destruct (Nat.ltb_spec k 4), (Nat.leb_spec 4 k); try lia; rewrite ?andb_false_r; reflexivity.
Qed.
Lemma famU_inv : forall n c, inverse_of n (famU n c) (fmul n (uppU c) (lowU c)).
Proof.
  intros n c. pose proof (invol_unip n _ (low_nil n c)) as L. pose proof (invol_unip n _ (upp_nil n c)) as U.
  fold (lowU c) in L. fold (uppU c) in U. unfold famU. split.
  - rewrite fmul_assoc, <- (fmul_assoc n (uppU c) (uppU c)), U, fmul_id_l. exact L.
  - rewrite fmul_assoc, <- (fmul_assoc n (lowU c) (lowU c)), L, fmul_id_l. exact U.
Qed.
Lemma famU_top : forall n c i j, i < 4 -> i < n -> j < n -> famU n c i j = uppU c i j.
Proof.
  intros n c i j Hi Hn Hj. unfold famU, fmul. rewrite <- (xsum_fid_l n i (fun k => uppU c k j)) by auto.
  apply xsum_ext. intros k Hk. f_equal. unfold lowU, fadd, lowpart.
  replace (4 <=? i) with false by (symmetry; apply Nat.leb_gt; auto). apply xorb_false_r.
Qed.
Lemma famU_left : forall n c i j, j < 4 -> i < n -> j < n -> famU n c i j = lowU c i j.
Proof.
  intros n c i j Hi Hn Hj. unfold famU, fmul. rewrite <- (xsum_fid_r n j (fun k => lowU c i k)) by auto.
  apply xsum_ext. intros k Hk. f_equal. unfold uppU, fadd, uppart.
  replace (4 <=? j) with false by (symmetry; apply Nat.leb_gt; auto). rewrite andb_false_r. apply xorb_false_r.
Qed.
Lemma famU_inj : forall n c d, 8 <= n -> (c < 2 ^ 32)%N -> (d < 2 ^ 32)%N -> feq n (famU n c) (famU n d) -> c = d.
Proof.
  intros n c d Hn Hc Hd H. apply N.bits_inj. intros q.
  destruct (N.lt_ge_cases q 32) as [Hq|Hq].
  2:{ rewrite (testbit_high c 32), (testbit_high d 32); auto. }
  assert (P : exists p, q = N.of_nat p /\ p < 32) by (exists (N.to_nat q); split; [symmetry; apply N2Nat.id|lia]).
  destruct P as (p & -> & Hp). clear Hq.
  destruct (le_lt_dec 16 p) as [P|P].
  - pose (i := (p - 16) / 4). pose (j := 4 + (p - 16) mod 4).
    pose proof (Nat.div_mod (p - 16) 4 ltac:(lia)). pose proof (Nat.mod_upper_bound (p - 16) 4 ltac:(lia)).
    assert (Hi : i < 4) by (unfold i; apply Nat.div_lt_upper_bound; lia).
    assert (Hj : 4 <= j < 8) by (unfold j; lia).
    specialize (H i j ltac:(lia) ltac:(lia)). rewrite !famU_top in H by lia.
    unfold uppU, fadd, uppart in H.
    replace (i <? 4) with true in H by (symmetry; apply Nat.ltb_lt; lia).
    replace (4 <=? j) with true in H by (symmetry; apply Nat.leb_le; lia).
    replace (j <? 8) with true in H by (symmetry; apply Nat.ltb_lt; lia). cbn [andb] in H.
    replace (16 + 4 * i + (j - 4)) with p in H by (unfold i, j; lia).
    destruct (fid i j), (N.testbit c (N.of_nat p)), (N.testbit d (N.of_nat p)); auto; discriminate H.
  - pose (i := 4 + p / 4). pose (j := p mod 4).
    pose proof (Nat.div_mod p 4 ltac:(lia)). pose proof (Nat.mod_upper_bound p 4 ltac:(lia)).
    assert (Hi : 4 <= i < 8) by (unfold i; pose proof (Nat.div_lt_upper_bound p 4 4); lia).
    assert (Hj : j < 4) by (unfold j; lia).
    specialize (H i j ltac:(lia) ltac:(lia)). rewrite !famU_left in H by lia.
    unfold lowU, fadd, lowpart in H.
    replace (i <? 8) with true in H by (symmetry; apply Nat.ltb_lt; lia).
    replace (4 <=? i) with true in H by (symmetry; apply Nat.leb_le; lia).
    replace (j <? 4) with true in H by (symmetry; apply Nat.ltb_lt; lia). cbn [andb] in H.
    replace (4 * (i - 4) + j) with p in H by (unfold i, j; lia).
    destruct (fid i j), (N.testbit c (N.of_nat p)), (N.testbit d (N.of_nat p)); auto; discriminate H.
Qed.
(** one more: rows 0 and 1 of the identity exchanged *)
Definition swp (i : nat) : nat := match i with 0 => 1 | 1 => 0 | _ => i end.
Definition swapU : fmat := fun i j => Nat.eqb (swp i) j.
Lemma swapU_inv : forall n, 2 <= n -> inverse_of n swapU swapU.
Proof.
  intros n Hn. assert (S : feq n (fmul n swapU swapU) fid); [|split; exact S].
  intros i j Hi Hj. unfold fmul.
  assert (Hsi : swp i < n) by (destruct i as [|[|i]]; cbn; lia).
  replace (xsum n _) with (xsum n (fun k => fid (swp i) k && swapU k j)).
  - rewrite xsum_fid_l by auto. unfold swapU, fid. destruct i as [|[|i]]; reflexivity.
  - apply xsum_ext. intros k _. reflexivity.
Qed.

(** the matrix with given bits *)
Fixpoint wordof (n : nat) (f : nat -> bool) : N :=
  match n with 0 => 0%N | S k => N.lor (wordof k f) (if f k then 2 ^ N.of_nat k else 0)%N end.
Lemma wordof_bit : forall n f q, N.testbit (wordof n f) q = (N.ltb q (N.of_nat n) && f (N.to_nat q))%bool.
Proof.
  induction n as [|n IH]; intros f q; cbn [wordof].
  - rewrite N.bits_0. destruct q; reflexivity.
  - rewrite N.lor_spec, IH.
    assert (T : N.testbit (if f n then 2 ^ N.of_nat n else 0)%N q = (N.eqb q (N.of_nat n) && f n)%bool).
    { destruct (f n); [|rewrite N.bits_0, andb_false_r; reflexivity].
      rewrite N.pow2_bits_eqb, N.eqb_sym, andb_true_r. reflexivity. }
    rewrite T. clear T. destruct (N.eqb_spec q (N.of_nat n)) as [->|Hq].
    + rewrite N.ltb_irrefl, Nat2N.id. replace (N.of_nat n <? N.of_nat (S n))%N with true by (symmetry; apply N.ltb_lt; lia).
      reflexivity.
    + cbn [andb]. rewrite orb_false_r. destruct (N.ltb_spec q (N.of_nat n)), (N.ltb_spec q (N.of_nat (S n))); auto; lia.
Qed.
Definition mat_fm (w : width) (A : fmat) : mat :=
  mk w (fun i k => wordof (wb w) (fun b => A i (wb w * k + (wb w - 1 - b)))).
Lemma mat_fm_wf : forall w A, wfM w (mat_fm w A).
Proof.
  intros w A. apply mk_bound. intros i k _ _. apply bits_bound. intros q Hq. rewrite wordof_bit.
  replace (q <? N.of_nat (wb w))%N with false by (symmetry; apply N.ltb_ge; auto). reflexivity.
Qed.
Lemma mat_fm_bits : forall w A, feq (dim w) (mbit w (mat_fm w A)) A.
Proof.
  intros w A i j Hi Hj. unfold mbit, mat_fm. rewrite word_mk by (auto using div_lt_nw). rewrite wordof_bit.
  pose proof (wb_pos w) as P. pose proof (Nat.mod_upper_bound j (wb w) ltac:(lia)) as M.
  replace (N.of_nat (wb w - 1 - j mod wb w) <? N.of_nat (wb w))%N with true by (symmetry; apply N.ltb_lt; lia).
  rewrite Nat2N.id. cbn [andb]. f_equal. pose proof (Nat.div_mod j (wb w) ltac:(lia)). lia.
Qed.

Lemma matdec : forall a b : mat, {a = b} + {a <> b}.
Proof. intros a b. repeat (apply list_eq_dec; intros). apply N.eq_dec. Qed.

(** invertible matrices outside any set of 2^32 *)
Lemma outside : forall w (F : N -> mat), w <> W4 ->
  exists a, wfM w a /\ invertible (dim w) (mbit w a) /\ forall x, (x < 2 ^ 32)%N -> a <> F x.
Proof.
  intros w F Hw. assert (Hn : 8 <= dim w) by (destruct w; try contradiction; cbn; lia).
  assert (ER : exists R : list N, NoDup R /\ (forall x, (x < 2 ^ 32)%N -> In x R) /\ (forall x, In x R -> (x < 2 ^ 32)%N)).
  { exists (range (2 ^ 32)). split; [apply range_nodup|]. split; [apply range_in|apply in_range]. }
  destruct ER as (R & R1 & R2 & R3).
  pose (f := fun c => mat_fm w (famU (dim w) c)).
  pose (L := mat_fm w swapU :: map f R).
  destruct (missing mat matdec L (map F R)) as (a & HL & HF).
  - constructor.
    + intros H. apply in_map_iff in H as (c & E & _).
      assert (X : mbit w (f c) 0 0 = mbit w (mat_fm w swapU) 0 0) by (rewrite E; reflexivity).
      unfold f in X. rewrite !mat_fm_bits in X by lia. rewrite famU_top in X by lia.
      unfold uppU, fadd, uppart in X. cbn in X. discriminate X.
    + assert (G : forall l, NoDup l -> (forall x, In x l -> (x < 2 ^ 32)%N) -> NoDup (map f l)).
      { induction l as [|c l IH]; intros HN HI; [constructor|]. inversion HN as [|? ? N1 N2]; subst. cbn [map]. constructor.
        - intros H. apply in_map_iff in H as (d & E & Hd). apply N1.
          assert (c = d); [|subst; auto]. apply (famU_inj (dim w)); auto.
          + apply HI. left. auto.
          + apply HI. right. auto.
          + intros i j Hi Hj. rewrite <- (mat_fm_bits w (famU (dim w) c) i j Hi Hj), <- (mat_fm_bits w (famU (dim w) d) i j Hi Hj).
            change (mbit w (f c) i j = mbit w (f d) i j). rewrite E. reflexivity.
        - apply IH; auto. intros x Hx. apply HI. right. auto. }
      apply G; auto.
  - unfold L. cbn [length]. rewrite !map_length. lia.
  - exists a. split; [|split].
    + destruct HL as [<-|H]; [apply mat_fm_wf|]. apply in_map_iff in H as (c & <- & _). apply mat_fm_wf.
    + destruct HL as [<-|H].
      * exists swapU. unfold inverse_of. rewrite !mat_fm_bits. apply swapU_inv. lia.
      * apply in_map_iff in H as (c & <- & _). eexists. unfold f, inverse_of. rewrite !mat_fm_bits. apply famU_inv.
    + intros x Hx ->. apply HF. apply in_map, R2, Hx.
Qed.
