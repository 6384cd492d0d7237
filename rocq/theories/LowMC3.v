(** test/LowMCMethod_text.cpp: the rejection loop, and isinvertM4 on bytes with garbage in the
    upper half. *)
From Coq Require Import Arith NArith List Bool Lia.
From Verif Require Import Base Tables Model Spec LinAlg Mem Cons Elim Check RowProd ModelLowMC SpecLowMC LowMC LowMC2.
Import ListNotations.

Definition stepP (w : width) (P : mat -> Prop) : Prop := forall m st, P m -> st80 st ->
  exists m' st', RandbitMat w m st = Ok (m', st') /\ P m' /\ st80 st'.
Definition decP (w : width) (P D : mat -> Prop) : Prop := forall m, P m ->
  (isinvert w m = Ok 1%N /\ D m) \/ (isinvert w m = Ok 0%N /\ ~ D m).

Lemma reject_gen : forall w P D, stepP w P -> decP w P D -> forall fuel t0 s0 temp s,
  P temp -> st80 s -> RandbitMat w t0 s0 = Ok (temp, s) ->
  exists r, lowmc_reject w fuel temp s = Ok r /\
  match r with
  | Some (m, s') => exists k, k <= fuel /\ nth_mat w k t0 s0 = Ok (m, s') /\ P m /\ D m /\
      (forall q x y, q < k -> nth_mat w q t0 s0 = Ok (x, y) -> ~ D x)
  | None => forall q x y, q <= fuel -> nth_mat w q t0 s0 = Ok (x, y) -> ~ D x
  end.
Proof.
  intros w P D HP HD. induction fuel as [|f IH]; intros t0 s0 temp s Ht Hs E.
  - cbn [lowmc_reject]. destruct (HD temp Ht) as [[Er HI]|[Er HI]]; rewrite Er; cbn [bind N.eqb negb].
    + eexists. split; [reflexivity|]. exists 0. split; [lia|]. split; [exact E|]. split; [exact Ht|].
      split; [exact HI|]. intros q x y Hq. lia.
    + eexists. split; [reflexivity|]. intros q x y Hq Eq. replace q with 0 in Eq by lia.
      cbn [nth_mat] in Eq. rewrite E in Eq. injection Eq as <- _. exact HI.
  - cbn [lowmc_reject]. destruct (HD temp Ht) as [[Er HI]|[Er HI]]; rewrite Er; cbn [bind N.eqb negb].
    + eexists. split; [reflexivity|]. exists 0. split; [lia|]. split; [exact E|]. split; [exact Ht|].
      split; [exact HI|]. intros q x y Hq. lia.
    + destruct (HP temp s Ht Hs) as (t1 & s1 & E1 & P1 & S1). rewrite E1. cbn [bind].
      destruct (IH temp s t1 s1 P1 S1 E1) as (r & Err & Hr).
      exists r. split; [exact Err|].
      assert (Sh : forall q, nth_mat w (S q) t0 s0 = nth_mat w q temp s)
        by (intros; cbn [nth_mat]; rewrite E; reflexivity).
      assert (Z : forall x y, nth_mat w 0 t0 s0 = Ok (x, y) -> ~ D x).
      { intros x y Ez. cbn [nth_mat] in Ez. rewrite E in Ez. injection Ez as <- _. exact HI. }
      destruct r as [[m s']|].
      * destruct Hr as (k & Hk & Ek & Wm & Im & Hq). exists (S k). split; [lia|].
        rewrite Sh. split; [exact Ek|]. split; [exact Wm|]. split; [exact Im|].
        intros [|q] x y Lq Eq; [apply (Z x y Eq)|]. rewrite Sh in Eq. apply (Hq q x y); auto. lia.
      * intros [|q] x y Lq Eq; [apply (Z x y Eq)|]. rewrite Sh in Eq. apply (Hr q x y); auto. lia.
Qed.

Lemma InvT_gen : forall w P D, stepP w P -> decP w P D -> (forall m, P m -> shapeM w m) ->
  forall fuel t0 m st, P t0 -> shapeM w m -> st80 st ->
  exists r, InvT_lowmc w fuel t0 m st = Ok r /\
  match r with
  | Some (m', st') => exists k, k <= fuel /\ nth_mat w k t0 st = Ok (m', st') /\ P m' /\ D m' /\
      (forall q x y, q < k -> nth_mat w q t0 st = Ok (x, y) -> ~ D x)
  | None => forall q x y, q <= fuel -> nth_mat w q t0 st = Ok (x, y) -> ~ D x
  end.
Proof.
  intros w P D HP HD HS fuel t0 m st Ht Hm Hst. unfold InvT_lowmc.
  destruct (HP t0 st Ht Hst) as (temp & s1 & E & P1 & S1). rewrite E. cbn [bind].
  destruct (reject_gen w P D HP HD fuel t0 st temp s1 P1 S1 E) as (r & Er & Hr). rewrite Er. cbn [bind].
  destruct r as [[m' s']|].
  - destruct Hr as (k & Hk & Ek & Pm & Hr). rewrite copyM_ok by auto. cbn [bind].
    eexists. split; [reflexivity|]. exists k. auto.
  - eexists. split; [reflexivity|]. exact Hr.
Qed.

(** ** Memory without garbage above the wb bits of an element *)

Lemma shape_oob : forall w m i k, shapeM w m -> dim w <= i \/ nw w <= k -> word m i k = 0%N.
Proof.
  intros w m i k [H1 H2] H. unfold word. destruct (Nat.lt_ge_cases i (dim w)) as [Hi|Hi].
  - destruct H as [H|H]; [lia|]. apply nth_overflow. rewrite Forall_forall in H2.
    rewrite H2 by (apply nth_In; lia). exact H.
  - rewrite (nth_overflow m) by lia. destruct k; reflexivity.
Qed.

Lemma RandbitMat_mat_of : forall w bits m st, wb w <= bits -> mat_of w bits m -> st80 st ->
  exists m' st', RandbitMat w m st = Ok (m', st') /\ mat_of w bits m' /\ st80 st'.
Proof.
  intros w bits m st Hbits Hm Hst. apply mat_of_iff in Hm. destruct Hm as [Hs Hb].
  destruct (RandbitMat_spec w m st Hs Hst) as (m' & E & Hs' & HB).
  exists m', (cst st (dim w * wb w * nw w)). split; [exact E|]. split; [|apply cst_80; exact Hst].
  apply mat_of_iff. split; [exact Hs'|]. intros i k.
  destruct (Nat.lt_ge_cases i (dim w)) as [Hi|Hi].
  - destruct (Nat.lt_ge_cases k (nw w)) as [Hk|Hk].
    + apply bits_bound. intros b Hb'. rewrite <- (N2Nat.id b), HB by auto.
      replace (N.to_nat b <? wb w) with false by (symmetry; apply Nat.ltb_ge; lia).
      rewrite xorb_false_r. apply testbit_high with (n := N.of_nat bits); [apply Hb|]. lia.
    + rewrite (shape_oob w) by auto. apply N.neq_0_lt_0. apply N.pow_nonzero. lia.
  - rewrite (shape_oob w) by auto. apply N.neq_0_lt_0. apply N.pow_nonzero. lia.
Qed.

Lemma step_wf : forall w, stepP w (wfM w).
Proof. intros w m st Hm Hst. apply RandbitMat_mat_of; auto. Qed.
Lemma dec_wf : forall w, decP w (wfM w) (fun m => invertible (dim w) (mbit w m)).
Proof.
  intros w m Hm. destruct (wp_exists _ _ _ (isinvert_wp w m Hm)) as (r & -> & [[-> H]|[-> H]]); auto.
Qed.

Lemma InvT_lowmc_spec : forall w fuel t0 m st, wfM w t0 -> shapeM w m -> st80 st ->
  exists r, InvT_lowmc w fuel t0 m st = Ok r /\
  match r with
  | Some (m', st') => exists k, k <= fuel /\ nth_mat w k t0 st = Ok (m', st') /\ wfM w m' /\
      invertible (dim w) (mbit w m') /\
      (forall q x y, q < k -> nth_mat w q t0 st = Ok (x, y) -> ~ invertible (dim w) (mbit w x))
  | None => forall q x y, q <= fuel -> nth_mat w q t0 st = Ok (x, y) -> ~ invertible (dim w) (mbit w x)
  end.
Proof.
  intros w fuel t0 m st Ht Hm Hst.
  apply (InvT_gen w (wfM w) (fun m => invertible (dim w) (mbit w m))); auto using step_wf, dec_wf, wfM_shape.
Qed.

(** ** isinvertM4 on arbitrary bytes *)

Lemma mbit4 : forall m i j, j < 4 -> mbit W4 m i j = N.testbit (word m i 0) (N.of_nat (3 - j)).
Proof. intros m i j Hj. do 4 (destruct j as [|j]; [reflexivity|]). lia. Qed.

Lemma xor4 : forall m j i (Q : mat -> Prop), typedM W4 m -> j < 4 -> i < 4 ->
  (forall m', typedM W4 m' -> feq 4 (mbit W4 m') (radd j i (mbit W4 m)) ->
     feq 4 (hbit m') (radd j i (hbit m)) -> Q m') ->
  wp (xor_row m j i 0 1) Q.
Proof.
  intros m j i Q Hm Hj Hi HQ. apply mat_of_iff in Hm. destruct Hm as [Hs Hb].
  apply wp_xor_row with (w := W4); auto. intros m' Hs' HW. apply HQ.
  - apply mat_of_iff. split; [exact Hs'|]. intros r k. rewrite HW.
    destruct (r =? j); cbn [andb]; [|apply Hb]. destruct ((0 <=? k) && (k <? 1)); [|apply Hb].
    apply bits_bound. intros b Hb'. rewrite N.lxor_spec, !(testbit_high _ _ _ (Hb _ _) Hb'). reflexivity.
  - intros r c Hr Hc. unfold radd. rewrite !mbit4 by auto. rewrite HW.
    destruct (r =? j); cbn [andb Nat.leb Nat.ltb]; [rewrite N.lxor_spec|]; reflexivity.
  - intros r c Hr Hc. unfold radd, hbit. rewrite HW.
    destruct (r =? j); cbn [andb Nat.leb Nat.ltb]; [rewrite N.lxor_spec|]; reflexivity.
Qed.
Lemma swap4 : forall m i j (Q : mat -> Prop), typedM W4 m -> i < 4 -> j < 4 ->
  (forall m', typedM W4 m' -> feq 4 (mbit W4 m') (rswap i j (mbit W4 m)) ->
     feq 4 (hbit m') (rswap i j (hbit m)) -> Q m') ->
  wp (swap_row m i j 0 1) Q.
Proof.
  intros m i j Q Hm Hi Hj HQ. apply mat_of_iff in Hm. destruct Hm as [Hs Hb].
  apply wp_swap_row with (w := W4); auto. intros m' Hs' HW. apply HQ.
  - apply mat_of_iff. split; [exact Hs'|]. intros r k. rewrite HW.
    destruct ((0 <=? k) && (k <? 1)); apply Hb.
  - intros r c Hr Hc. unfold rswap. rewrite !mbit4 by auto. rewrite HW. cbn [andb Nat.leb Nat.ltb].
    destruct (r =? i), (r =? j); rewrite ?mbit4 by auto; reflexivity.
  - intros r c Hr Hc. unfold rswap, hbit. rewrite HW. cbn [andb Nat.leb Nat.ltb].
    destruct (r =? i), (r =? j); reflexivity.
Qed.

Definition J (L H V : fmat) (m : mat) : Prop :=
  typedM W4 m /\ rowtr 4 L V (mbit W4 m) /\ feq 4 (hbit m) (fmul 4 V H).

Lemma J_radd : forall L H V m m' j i, j < 4 -> i < 4 -> j <> i -> J L H V m -> typedM W4 m' ->
  feq 4 (mbit W4 m') (radd j i (mbit W4 m)) -> feq 4 (hbit m') (radd j i (hbit m)) ->
  J L H (radd j i V) m'.
Proof.
  intros L H V m m' j i Hj Hi Hn (_ & J2 & J3) T HB HH. split; [exact T|]. split.
  - apply (rowtr_ext 4 L (radd j i V) _ (radd j i (mbit W4 m))); [reflexivity|symmetry; exact HB|].
    apply rowtr_radd; auto.
  - rewrite HH, <- radd_fmul. apply radd_ext; auto.
Qed.
Lemma J_rswap : forall L H V m m' j i, j < 4 -> i < 4 -> J L H V m -> typedM W4 m' ->
  feq 4 (mbit W4 m') (rswap i j (mbit W4 m)) -> feq 4 (hbit m') (rswap i j (hbit m)) ->
  J L H (rswap i j V) m'.
Proof.
  intros L H V m m' j i Hj Hi (_ & J2 & J3) T HB HH. split; [exact T|]. split.
  - apply (rowtr_ext 4 L (rswap i j V) _ (rswap i j (mbit W4 m))); [reflexivity|symmetry; exact HB|].
    apply rowtr_rswap; auto.
  - rewrite HH, <- rswap_fmul. apply rswap_ext; auto.
Qed.

Lemma elim4 : forall L H i m V (Q : mat -> Prop), i < 4 -> J L H V m ->
  zb 4 i (mbit W4 m) -> piv i (mbit W4 m) -> mbit W4 m i i = true ->
  (forall m' V', J L H V' m' -> zb 4 (S i) (mbit W4 m') -> piv (S i) (mbit W4 m') -> Q m') ->
  wp (elim_below W4 0 i m) Q.
Proof.
  intros L H i m V Q Hi4 HJ Hz Hp Hi HQ. unfold elim_below.
  apply wp_for_up with (I := fun j m => (exists V, J L H V m) /\
    zb 4 i (mbit W4 m) /\ piv i (mbit W4 m) /\ mbit W4 m i i = true /\ col_done i j (mbit W4 m)).
  - cbn. lia.
  - split; [eauto|]. split; [exact Hz|]. split; [exact Hp|]. split; [exact Hi|]. intros r Hr1 Hr2; lia.
  - clear m V HJ Hz Hp Hi.
    intros j m Hj1 Hj2 ((V & HJ) & Hz & Hp & Hi & Hc). cbn [dim] in Hj2.
    assert (Hs : shapeM W4 m) by (apply typedM_shape; apply HJ).
    apply wp_bind. apply wp_bit_test_col; auto; try (cbn; lia).
    destruct (mbit W4 m j i) eqn:E.
    + apply xor4; [apply HJ|lia|lia|]. intros m' T HB HH.
      split; [exists (radd j i V); apply (J_radd L H V m m' j i); auto; lia|].
      split; [apply (zb_ext _ _ (radd j i (mbit W4 m)));
              [lia|symmetry; exact HB|apply zb_radd; auto; lia]|].
      split; [apply (piv_ext 4 _ (radd j i (mbit W4 m)));
              [lia|symmetry; exact HB|apply (piv_radd 4); auto; lia]|].
      split.
      * rewrite HB by auto. unfold radd. destruct (Nat.eqb_spec i j); [lia|auto].
      * apply (col_done_ext 4 _ _ (radd j i (mbit W4 m)));
          [lia|lia|symmetry; exact HB|apply col_done_radd; auto; lia].
    + split; [eauto|]. repeat split; auto. apply col_done_skip; auto.
  - intros m' ((V' & HJ') & Hz' & Hp' & Hi' & Hc').
    apply (HQ m' V'); auto using zb_next, piv_next.
Qed.

Definition good4 (m : mat) : Prop := exists B, inverse_of 4 (mbit W4 m) B /\
  forall c, c < 4 -> fmul 4 B (hbit m) 3 c = false.

Lemma last4 : forall L H V m, J L H V m -> zb 4 4 (mbit W4 m) -> piv 4 (mbit W4 m) ->
  forall B, inverse_of 4 L B -> forall c, c < 4 -> fmul 4 B H 3 c = hbit m 3 c.
Proof.
  intros L H V m (T & [HV HR] & HH) Hz Hp B [HB1 HB2] c Hc.
  assert (EV : feq 4 V (fmul 4 (mbit W4 m) B)).
  { rewrite HR, fmul_assoc, HB1, fmul_id_r. reflexivity. }
  assert (E3 : forall k, k < 4 -> V 3 k = B 3 k).
  { intros k Hk. rewrite EV by lia. unfold fmul. cbn [xsum].
    rewrite (Hz 3 0), (Hz 3 1), (Hz 3 2), (Hp 3) by lia. cbn [andb]. destruct (B 3 k); reflexivity. }
  rewrite HH by lia. unfold fmul. cbn [xsum]. rewrite !E3 by lia. reflexivity.
Qed.

Lemma word4_eq1 : forall m, typedM W4 m -> zb 4 4 (mbit W4 m) -> piv 4 (mbit W4 m) ->
  (word m 3 0 = 1%N <-> forall c, c < 4 -> hbit m 3 c = false).
Proof.
  intros m T Hz Hp. apply mat_of_iff in T. destruct T as [_ Hb]. specialize (Hb 3 0).
  pose proof (Hz 3 0) as Z0. pose proof (Hz 3 1) as Z1. pose proof (Hz 3 2) as Z2. pose proof (Hp 3) as Z3.
  rewrite mbit4 in Z0, Z1, Z2, Z3 by lia. specialize (Z0 ltac:(lia) ltac:(lia) ltac:(lia)).
  specialize (Z1 ltac:(lia) ltac:(lia) ltac:(lia)). specialize (Z2 ltac:(lia) ltac:(lia) ltac:(lia)).
  specialize (Z3 ltac:(lia)). unfold hbit. split.
  - intros E c Hc. rewrite E. do 4 (destruct c as [|c]; [reflexivity|]). lia.
  - intros HH. apply N.bits_inj. intros b. destruct (N.lt_ge_cases b 8) as [H8|H8].
    + assert (X : forall k, k < 8 -> N.testbit (word m 3 0) (N.of_nat k) = N.testbit 1 (N.of_nat k)).
      { intros k Hk. destruct k as [|k]; [exact Z3|]. destruct k as [|k]; [exact Z2|].
        destruct k as [|k]; [exact Z1|]. destruct k as [|k]; [exact Z0|].
        destruct k as [|k]; [exact (HH 3 ltac:(lia))|]. destruct k as [|k]; [exact (HH 2 ltac:(lia))|].
        destruct k as [|k]; [exact (HH 1 ltac:(lia))|]. destruct k as [|k]; [exact (HH 0 ltac:(lia))|]. lia. }
      rewrite <- (N2Nat.id b). apply X. lia.
    + rewrite (testbit_high (word m 3 0) 8) by (auto; exact Hb).
      symmetry. apply (testbit_high 1 8); [reflexivity|exact H8].
Qed.

Lemma isinvert4 : forall m, typedM W4 m -> wp (isinvert W4 m) (fun r =>
  (r = 1%N /\ good4 m) \/ (r = 0%N /\ ~ good4 m)).
Proof.
  intros m0 Hm0. unfold isinvert. set (L := mbit W4 m0). set (H := hbit m0).
  pose (I := fun i m => (exists V, J L H V m) /\ zb 4 i (mbit W4 m) /\ piv i (mbit W4 m)).
  apply wp_bind. apply wp_blocks_ret with (I := I).
  - split; [exists fid; split; [exact Hm0|split; [apply rowtr_id|symmetry; apply fmul_id_l]]|].
    split; [intros r k E; lia|intros k E; lia].
  - intros b i m Hb Hi1 Hi2 Hin ((V & HJ) & Hz & Hp). cbn [nw] in Hb. assert (b = 0) by lia. subst b.
    cbn [wb dim] in Hi1, Hi2, Hin. cbn [Nat.mul Nat.add] in Hi1, Hi2.
    assert (Hs : shapeM W4 m) by (apply typedM_shape; apply HJ).
    apply wp_bind. apply wp_bit_test_col; auto; try (cbn; lia).
    destruct (mbit W4 m i i) eqn:E.
    + apply wp_bind. apply (elim4 L H i m V); auto.
      intros m' V' H1 H2 H3. apply wp_ok. split; eauto.
    + apply wp_bind.
      apply wp_find_up with (P := fun j => mbit W4 m j i); [cbn; lia| | |].
      * intros j Hj1 Hj2. apply wp_bit_test_col; auto; try (cbn; lia).
      * intros j Hj1 Hj2 HPj _. cbn [dim] in Hj2. apply wp_bind.
        apply swap4; auto; [apply HJ|]. intros m1 T HB HH. apply wp_bind.
        apply (elim4 L H i m1 (rswap i j V)); auto.
        -- apply (J_rswap L H V m m1 j i); auto.
        -- apply (zb_ext _ _ (rswap i j (mbit W4 m)));
             [lia|symmetry; exact HB|apply zb_rswap; auto; lia].
        -- apply (piv_ext 4 _ (rswap i j (mbit W4 m)));
             [lia|symmetry; exact HB|apply piv_rswap; auto; lia].
        -- rewrite HB by auto. unfold rswap. rewrite Nat.eqb_refl. exact HPj.
        -- intros m' V' H1 H2 H3. apply wp_ok. split; eauto.
      * intros HN. apply wp_ok. cbv beta iota. right. split; [reflexivity|]. intros (B & HB & _).
        assert (HI : invertible 4 L) by (exists B; exact HB). revert HI.
        apply (no_pivot_singular 4 i L V (mbit W4 m)); auto; [apply HJ|].
        intros r Hr1 Hr2. destruct (Nat.eq_dec r i) as [->|]; auto. apply HN; cbn; lia.
  - intros m ((V & HJ) & Hz & Hp). cbn [dim] in Hz, Hp. cbv beta iota.
    assert (T : typedM W4 m) by apply HJ.
    apply wp_bind. apply wp_mget with (w := W4); auto using typedM_shape.
    apply wp_bind. apply wp_idt; [cbn; lia|]. apply wp_ok.
    change (2 ^ N.of_nat (wb W4 - 1 - (wb W4 - 1)))%N with 1%N.
    change (dim W4 - 1) with 3. change (nw W4 - 1) with 0.
    pose proof (word4_eq1 m T Hz Hp) as W.
    destruct (unitri_invertible 4 L V (mbit W4 m)) as [B HB]; auto; [apply HJ|].
    pose proof (last4 L H V m HJ Hz Hp) as HL.
    destruct (N.eqb_spec (word m 3 0) 1) as [E|E].
    + left. split; [reflexivity|]. exists B. split; [exact HB|]. intros c Hc.
      fold H. rewrite (HL B HB c Hc). apply W; auto.
    + right. split; [reflexivity|]. intros (B' & HB' & HZ). apply E. apply W. intros c Hc.
      rewrite <- (HL B' HB' c Hc). apply HZ; auto.
Qed.

Lemma dec_typed4 : forall H, decP W4 (fun m => typedM W4 m /\ feq 4 (hbit m) H) good4.
Proof.
  intros H m [Hm _]. destruct (wp_exists _ _ _ (isinvert4 m Hm)) as (r & -> & [[-> G]|[-> G]]); auto.
Qed.
Lemma step_typed4 : forall H, stepP W4 (fun m => typedM W4 m /\ feq 4 (hbit m) H).
Proof.
  intros H m st [Hm HH] Hst.
  destruct (RandbitMat_mat_of W4 8 m st ltac:(cbn; lia) Hm Hst) as (m' & st' & E & T & S).
  exists m', st'. split; [exact E|]. split; [|exact S]. split; [exact T|]. rewrite <- HH.
  destruct (RandbitMat_spec W4 m st (typedM_shape _ _ Hm) Hst) as (m'' & E' & _ & HB).
  rewrite E in E'. injection E' as <- _. intros i j Hi Hj. unfold hbit. rewrite HB by (cbn; lia).
  replace (7 - j <? wb W4) with false by (symmetry; apply Nat.ltb_ge; change (wb W4) with 4; lia).
  apply xorb_false_r.
Qed.

Lemma good4_high : forall m, good4 m -> invertible 4 (mbit W4 m) /\ ~ invertible 4 (hbit m).
Proof.
  intros m (B & HB & HZ). split; [exists B; exact HB|]. intros HH.
  assert (HI : invertible 4 (fmul 4 B (hbit m))).
  { apply invertible_mul; auto. exists (mbit W4 m). destruct HB; split; auto. }
  destruct HI as [C [HC _]].
  assert (X : fmul 4 (fmul 4 B (hbit m)) C 3 3 = true) by (rewrite HC by lia; reflexivity).
  unfold fmul at 1 in X. cbn [xsum] in X. rewrite !HZ in X by lia. discriminate X.
Qed.

Lemma InvT_lowmc4_spec : forall fuel t0 m st, typedM W4 t0 -> shapeM W4 m -> st80 st ->
  exists r, InvT_lowmc W4 fuel t0 m st = Ok r /\
  match r with
  | Some (m', st') => exists k, k <= fuel /\ nth_mat W4 k t0 st = Ok (m', st') /\ typedM W4 m' /\
      feq 4 (hbit m') (hbit t0) /\ good4 m' /\
      (forall q x y, q < k -> nth_mat W4 q t0 st = Ok (x, y) -> ~ good4 x)
  | None => forall q x y, q <= fuel -> nth_mat W4 q t0 st = Ok (x, y) -> ~ good4 x
  end.
Proof.
  intros fuel t0 m st Ht Hm Hst.
  destruct (InvT_gen W4 _ good4 (step_typed4 (hbit t0)) (dec_typed4 (hbit t0))
              (fun m H => typedM_shape _ _ (proj1 H)) fuel t0 m st (conj Ht (feq_refl 4 _)) Hm Hst)
    as (r & E & Hr).
  exists r. split; [exact E|]. destruct r as [[m' st']|]; [|exact Hr].
  destruct Hr as (k & H1 & H2 & (H3 & H4) & H5 & H6). exists k. auto 10.
Qed.

Lemma InvT_lowmc4_stuck : forall fuel t0 m st, typedM W4 t0 -> shapeM W4 m -> st80 st ->
  invertible 4 (hbit t0) -> InvT_lowmc W4 fuel t0 m st = Ok None.
Proof.
  intros fuel t0 m st Ht Hm Hst HI.
  destruct (InvT_lowmc4_spec fuel t0 m st Ht Hm Hst) as ([[m' st']|] & E & Hr); [exfalso|exact E].
  destruct Hr as (k & _ & _ & _ & HH & G & _). apply good4_high in G. apply (proj2 G).
  rewrite HH. exact HI.
Qed.
