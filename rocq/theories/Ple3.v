(** Linear systems by a factorisation *)
From Coq Require Import Arith NArith ZArith List Bool Lia ZifyNat.
From Verif Require Import Base Spec LinAlg ModelM4ri SpecM4ri M4ri1 M4riD ModelM4ri2 SpecM4ri2 M4ri9 M4ri14 M4ri16 M4ri18 ModelStrassen SpecStrassen Strassen1 Strassen4 ModelTri SpecTri Tri1 Tri2 Tri3 ModelPle SpecPle Ple1 Ple2.
Import ListNotations.
#[local] Ltac Zify.zify_post_hook ::= Z.to_euclidean_division_equations.

(** ** Linear algebra *)
Lemma pluq_at : forall m n r A0 D P Q, pluq_of m n r A0 D P Q -> forall x y, x < m -> y < n ->
  A0 (perm (at_ P) m x) (perm (at_ Q) n y) = xsum r (fun k => unit_lower D x k && unit_upper D k y).
Proof. intros m n r A0 D P Q (_ & _ & _ & _ & E) x y Hx Hy. exact (E x y Hx Hy). Qed.

(** A0 applied to a vector, in terms of the factors *)
Lemma pluq_apply : forall m n r A0 D P Q, pluq_of m n r A0 D P Q -> forall v x, x < m ->
  xsum n (fun y => A0 (perm (at_ P) m x) y && v y) =
  xsum r (fun k => unit_lower D x k && xsum n (fun y => unit_upper D k y && v (perm (at_ Q) n y))).
Proof.
  intros m n r A0 D P Q H v x Hx. pose proof H as (_ & SQ & _ & _ & _).
  rewrite <- (xsum_perm n (at_ Q) n) by (apply swaps_lt; exact SQ).
  rewrite (xsum_ext n _ (fun y => xsum r (fun k => unit_lower D x k && (unit_upper D k y && v (perm (at_ Q) n y))))).
  - rewrite xsum_swap. apply xsum_ext. intros k Hk. apply xsum_andb_l.
  - intros y Hy. rewrite (pluq_at m n r A0 D P Q H) by assumption. rewrite <- xsum_andb_r. apply xsum_ext. intros k Hk. symmetry. apply andb_assoc.
Qed.

Lemma upper_split : forall n r D v k, r <= n -> k < r -> (forall y, r <= y -> y < n -> v y = false) ->
  xsum n (fun y => unit_upper D k y && v y) = xsum r (fun y => unit_upper D k y && v y).
Proof.
  intros n r D v k Hr Hk H. replace n with (r + (n - r)) by lia. rewrite xsum_add, (xsum_false (n - r)); [apply xorb_false_r|].
  intros y Hy. rewrite H by lia. apply andb_false_r.
Qed.

Lemma solve_sound : forall m n r c A0 D P Q B0 Bf Y X, pluq_of m n r A0 D P Q ->
  (forall x t, x < m -> t < c -> B0 (perm (at_ P) m x) t = xsum r (fun k => unit_lower D x k && Y k t)) ->
  (forall k t, k < r -> t < c -> xsum r (fun y => unit_upper D k y && Bf y t) = Y k t) ->
  (forall y t, r <= y -> y < n -> t < c -> Bf y t = false) ->
  (forall x t, x < n -> t < c -> X x t = Bf (iperm (at_ Q) n x) t) -> solves m n c A0 X B0.
Proof.
  intros m n r c A0 D P Q B0 Bf Y X H Ha Hb Hz Hx x t Hxm Ht. pose proof H as (SP & SQ & Hm & Hn & _).
  pose proof (swaps_lt m P SP) as WP. pose proof (swaps_lt n Q SQ) as WQ. unfold fmul.
  rewrite <- (perm_iperm (at_ P) m x). set (x' := iperm (at_ P) m x). assert (Hx' : x' < m) by (apply iperm_lt; assumption).
  rewrite (xsum_ext n _ (fun y => A0 (perm (at_ P) m x') y && Bf (iperm (at_ Q) n y) t)) by (intros y Hy; rewrite Hx by assumption; reflexivity).
  rewrite (pluq_apply m n r A0 D P Q H (fun y => Bf (iperm (at_ Q) n y) t)) by exact Hx'. rewrite Ha by assumption.
  apply xsum_ext. intros k Hk. f_equal. rewrite <- Hb by assumption.
  rewrite (xsum_ext n _ (fun y => unit_upper D k y && Bf y t)) by (intros y Hy; rewrite iperm_perm; reflexivity).
  apply (upper_split n r D (fun y => Bf y t) k); auto.
Qed.

(** A unit lower triangular matrix determines the solution *)
Lemma lower_unique : forall r D (v : fvec), (forall x, x < r -> xsum r (fun k => unit_lower D x k && v k) = false) -> forall k, k < r -> v k = false.
Proof.
  intros r D v H. induction k as [k IH] using lt_wf_ind. intros Hk. specialize (H k Hk). rewrite (xsum_single r k) in H; [|exact Hk|].
  - unfold unit_lower in H. rewrite Nat.ltb_irrefl, Nat.eqb_refl in H. exact H.
  - intros k' Hk' Hne. destruct (Nat.lt_ge_cases k' k) as [G|G]; [rewrite IH by lia; apply andb_false_r|].
    unfold unit_lower. destruct (Nat.ltb_spec k' k); [lia|]. destruct (Nat.eqb_spec k k'); [lia|reflexivity].
Qed.

Lemma solve_complete : forall m n r c A0 D P Q B0 Y Xs, pluq_of m n r A0 D P Q -> solves m n c A0 Xs B0 ->
  (forall x t, x < r -> t < c -> B0 (perm (at_ P) m x) t = xsum r (fun k => unit_lower D x k && Y k t)) ->
  forall x t, x < m -> t < c -> B0 (perm (at_ P) m x) t = xsum r (fun k => unit_lower D x k && Y k t).
Proof.
  intros m n r c A0 D P Q B0 Y Xs H HX Hr. pose proof H as (SP & SQ & Hm & Hn & _).
  pose proof (swaps_lt m P SP) as WP. pose proof (swaps_lt n Q SQ) as WQ.
  set (W := fun k t => xsum n (fun y => unit_upper D k y && Xs (perm (at_ Q) n y) t)).
  assert (E : forall x t, x < m -> t < c -> B0 (perm (at_ P) m x) t = xsum r (fun k => unit_lower D x k && W k t)).
  { intros x t Hx Ht. rewrite <- (HX (perm (at_ P) m x) t) by (auto; apply perm_lt; assumption). unfold fmul.
    apply (pluq_apply m n r A0 D P Q H (fun y => Xs y t)); assumption. }
  intros x t Hx Ht. rewrite E by assumption. apply xsum_ext. intros k Hk. f_equal.
  assert (Z : xorb (W k t) (Y k t) = false).
  { apply (lower_unique r D (fun k => xorb (W k t) (Y k t))); [|exact Hk]. intros x' Hx'.
    rewrite (xsum_ext r _ (fun k => xorb (unit_lower D x' k && W k t) (unit_lower D x' k && Y k t))) by (intros; destruct (unit_lower D x' k0), (W k0 t), (Y k0 t); reflexivity).
    rewrite xsum_xorb, <- E, <- Hr by (assumption || lia). apply xorb_nilpotent. }
  apply xorb_eq. exact Z.
Qed.

(** ** Clearing bits *)
Lemma clear_word_ok : forall R C M i w n (Q : mzd -> Prop), okm R C M -> i < R -> 1 <= n -> n <= 64 -> 64 * w + n <= C ->
  (forall M', okm R C M' -> (forall a j, bitat M' a j = if Nat.eqb a i && Nat.leb (64 * w) j && Nat.ltb j (64 * w + n) then false else bitat M a j) -> Q M') ->
  wp (mzd_clear_bits M i (64 * w) n) Q.
Proof.
  intros R C M i w n Q HM Hi Hn1 Hn2 Hw HQ. unfold mzd_clear_bits.
  destruct (Nat.eqb_spec n 0); [lia|]. destruct (Nat.ltb_spec 64 n); [lia|]. cbn [orb]. cbv zeta.
  replace ((64 * w) mod 64) with 0 by lia. replace (64 * w / 64) with w by lia.
  assert (Hk : w < wwidth C) by (pose proof (wwidth_lt C (64 * w) ltac:(lia)); lia).
  apply wp_bind, (wp_wget R C); auto. apply wp_bind, wp_shl; [lia|]. intros s Es.
  assert (Es' : forall b, tb s b = Nat.ltb b n).
  { intros b. rewrite Es, Nat.sub_0_r, tb_shr, tb_ffff. destruct (Nat.leb_spec 0 b), (Nat.ltb_spec (b + (64 - n)) 64), (Nat.ltb_spec b 64), (Nat.ltb_spec b n); lia || reflexivity. }
  assert (W : wfr C (nth i (mrows M) [])) by (apply HM; exact Hi).
  apply wp_bind, (wp_wset R C); auto.
  { intros b Hb. rewrite tb_ldiff in Hb. apply andb_true_iff in Hb. destruct Hb as [Hb _]. apply W in Hb. exact Hb. }
  intros M' HM' E. destruct (Nat.ltb_spec (64 - 0) n); [lia|]. apply wp_ok, HQ; [exact HM'|]. intros a j. rewrite E.
  destruct (Nat.eqb_spec a i) as [->|]; cbn [andb]; [|reflexivity].
  destruct (Nat.eqb_spec (j / 64) w) as [Ej|Ej].
  - rewrite tb_ldiff, Es'. unfold bitat. rewrite rowbit_tb, Ej.
    destruct (Nat.ltb_spec (j mod 64) n), (Nat.leb_spec (64 * w) j), (Nat.ltb_spec j (64 * w + n)); try lia; cbn [andb negb]; rewrite ?andb_false_r, ?andb_true_r; reflexivity.
  - destruct (Nat.leb_spec (64 * w) j), (Nat.ltb_spec j (64 * w + n)); try lia; reflexivity.
Qed.

Lemma clear_rows_ok : forall R C M r (Q : mzd -> Prop), okm R C M -> r <= R ->
  (forall M', okm R C M' -> (forall i j, i < R -> j < C -> bitat M' i j = if Nat.leb r i then false else bitat M i j) -> Q M') ->
  wp (for_up r R (fun i B => for_up 0 ((C + 63) / 64) (fun w B => mzd_clear_bits B i (64 * w) (Nat.min 64 (C - 64 * w))) B) M) Q.
Proof.
  intros R C M r Q HM Hr HQ.
  apply (wp_for_up _ (fun l M' => okm R C M' /\ forall i j, i < R -> j < C -> bitat M' i j = if Nat.leb r i && Nat.ltb i l then false else bitat M i j)).
  - exact Hr.
  - split; [exact HM|]. intros i j _ _. destruct (Nat.leb_spec r i), (Nat.ltb_spec i r); lia || reflexivity.
  - intros l M' Hl1 Hl2 [HM' E].
    apply (wp_for_up _ (fun w M2 => okm R C M2 /\ forall i j, i < R -> j < C -> bitat M2 i j = if Nat.eqb i l && Nat.ltb j (64 * w) then false else bitat M' i j)).
    + lia.
    + split; [exact HM'|]. intros i j _ _. destruct (Nat.ltb_spec j (64 * 0)); [lia|]. rewrite andb_false_r. reflexivity.
    + intros w M2 _ Hw [HM2 E2]. apply (clear_word_ok R C); [exact HM2|exact Hl2|lia|lia|lia|]. intros M3 HM3 E3. split; [exact HM3|].
      intros i j Hi Hj. rewrite E3, E2 by assumption. destruct (Nat.eqb_spec i l); cbn [andb]; [|reflexivity].
      destruct (Nat.leb_spec (64 * w) j), (Nat.ltb_spec j (64 * w + Nat.min 64 (C - 64 * w))), (Nat.ltb_spec j (64 * w)), (Nat.ltb_spec j (64 * S w)); lia || reflexivity.
    + intros M2 [HM2 E2]. split; [exact HM2|]. intros i j Hi Hj. rewrite E2, E by assumption.
      destruct (Nat.ltb_spec j (64 * ((C + 63) / 64))); [|lia]. rewrite andb_true_r.
      destruct (Nat.eqb_spec i l), (Nat.leb_spec r i), (Nat.ltb_spec i l), (Nat.ltb_spec i (S l)); lia || reflexivity.
  - intros M' [HM' E]. apply HQ; [exact HM'|]. intros i j Hi Hj. rewrite E by assumption. destruct (Nat.ltb_spec i R); [|lia]. rewrite andb_true_r. reflexivity.
Qed.

(** ** Solving *)
Section Solve.
Variables (kcache : nat) (junk : nat -> list N) (cutoff : nat).
Hypothesis Hj : junk_ok junk.
Hypothesis Hc : (N.of_nat cutoff < 2 ^ 29)%N.
Hypothesis Hraw : cutoff = 0 \/ 64 <= cutoff.

(** The windows of the triangular matrices *)
Lemma lower_win : forall A r c LU Y Y', (forall i j, i < r -> j < r -> bitat LU i j = bitat A i j) ->
  inv r c LU (bitat Y) below Y' ->
  forall x t, x < r -> t < c -> bitat Y x t = xsum r (fun k => unit_lower (bitat A) x k && bitat Y' k t).
Proof.
  intros A r c LU Y Y' E [_ H] x t Hx Ht. rewrite <- (H x t Hx Ht). rewrite <- (unit_lower_sum r (bitat LU) (bitat Y') x t Hx).
  unfold fmul. apply xsum_ext. intros k Hk. unfold unit_lower. rewrite E by assumption. reflexivity.
Qed.
Lemma upper_win : forall A r c LU Y Y', (forall i j, i < r -> j < r -> bitat LU i j = bitat A i j) ->
  inv r c LU (bitat Y) above Y' ->
  forall x t, x < r -> t < c -> xsum r (fun k => unit_upper (bitat A) x k && bitat Y' k t) = bitat Y x t.
Proof.
  intros A r c LU Y Y' E [_ H] x t Hx Ht. rewrite <- (H x t Hx Ht). rewrite <- (unit_upper_sum r (bitat LU) (bitat Y') x t Hx).
  unfold fmul. apply xsum_ext. intros k Hk. unfold unit_upper. rewrite E by assumption. reflexivity.
Qed.

Lemma perm_high : forall P m n x, n <= m -> (forall i, i < n -> i <= at_ P i /\ at_ P i < m) -> m <= x -> perm (at_ P) n x = x.
Proof.
  intros P m. induction n as [|n IH]; intros x Hn H Hx; [reflexivity|]. cbn [perm]. destruct (H n) as [G1 G2]; [lia|].
  replace (tr n (at_ P n) x) with x; [apply IH; auto; lia|]. unfold tr. destruct (Nat.eqb_spec x n); [lia|]. destruct (Nat.eqb_spec x (at_ P n)); [lia|reflexivity].
Qed.
Lemma iperm_high : forall P m n x, n <= m -> (forall i, i < n -> i <= at_ P i /\ at_ P i < m) -> m <= x -> iperm (at_ P) n x = x.
Proof.
  intros P m. induction n as [|n IH]; intros x Hn H Hx; [reflexivity|]. cbn [iperm]. destruct (H n) as [G1 G2]; [lia|].
  rewrite IH; auto; [|lia]. unfold tr. destruct (Nat.eqb_spec x n); [lia|]. destruct (Nat.eqb_spec x (at_ P n)); [lia|reflexivity].
Qed.

Lemma solve_ok : forall m n r b c A0 A P Q B (check : bool) (Post : mzd * bool -> Prop), okm m n A -> okm b c B -> 1 <= c -> n <= b -> m <= b ->
  pluq_of m n r A0 (bitat A) P Q -> fits m n -> fits b c -> fits c b -> fits b b ->
  (check = true -> cuts cutoff r \/ m - r < 128 \/ c < 128) ->
  (forall X (ok : bool), okm b c X -> 
     (ok = true -> forall x t, n <= x -> x < b -> t < c -> bitat X x t = false) ->
     (check = true -> ok = true <-> exists Xs, solves m n c A0 Xs (bitat B)) -> (check = false -> ok = true) ->
     ((exists Xs, solves m n c A0 Xs (bitat B)) -> solves m n c A0 (bitat X) (bitat B)) -> Post (X, ok)) ->
  wp (mzd_pluq_solve_left kcache junk A r P Q B cutoff check) Post.
Proof.
  intros m n r b c A0 A P Q B check Post HA HB Hc1 Hnb Hmb H F0 F1 F2 F3 HK HPost. unfold mzd_pluq_solve_left.
  pose proof HA as (A1 & A2 & _). pose proof HB as (B1 & B2 & _). pose proof H as (SP & SQ & Hm & Hn & _).
  pose proof SP as [LP HP]. pose proof SQ as [LQ HQ]. rewrite A1, A2, B1, B2, LP, LQ, !Nat.eqb_refl.
  destruct (Nat.ltb_spec b n); [lia|]. cbn [negb orb]. cbv zeta.
  apply wp_bind, (apply_p_left_ok b c B P m); [exact HB|lia|lia|intros i Hi; destruct (HP i Hi); unfold at_; lia|]. intros Bp HBp EBp.
  apply wp_bind, (wp_wind m n A 0 0 r r r r); [apply okm_okd; exact HA|reflexivity|lia|lia|lia|lia|]. intros LU HLU _ ELU.
  apply wp_bind, (wp_win b c Bp 0 0 r c r c); [exact HBp|split; lia|lia|lia|lia|]. intros Y HY EY.
  assert (FL : fits r r /\ fits r c /\ fits c r).
  { split; [eapply fits_le; [exact F3|lia|lia]|]. split; [eapply fits_le; [exact F1|lia|lia]|eapply fits_le; [exact F2|lia|lia]]. }
  destruct FL as (FL1 & FL2 & FL3). pose proof HLU as (LU1 & LU2 & _). pose proof HY as (Y1 & Y2 & _).
  assert (Dim : negb (Nat.eqb (mncols LU) (mnrows Y)) || negb (Nat.eqb (mnrows LU) (mncols LU)) = false) by (rewrite LU1, LU2, Y1, Nat.eqb_refl; reflexivity).
  apply wp_bind. unfold mzd_trsm_lower_left. rewrite Dim.
  apply (trsm_lower_ok kcache junk cutoff Hj Hc (S (mnrows Y)) r c LU Y); auto; [lia|]. intros Ya IYa.
  pose proof IYa as [HYa _]. pose proof HYa as (Ya1 & Ya2 & _).
  assert (ELY : forall x t, x < r -> t < c -> bitat B (perm (at_ P) m x) t = xsum r (fun k => unit_lower (bitat A) x k && bitat Ya k t)).
  { intros x t Hx Ht. rewrite <- EBp. rewrite <- (lower_win A r c LU Y Ya ltac:(intros; rewrite ELU by assumption; reflexivity) IYa x t Hx Ht).
    rewrite EY by assumption. reflexivity. }
  destruct (put_ok b c Bp Ya 0 0 r c HBp HYa ltac:(split; lia) ltac:(lia)) as [HB2 EB2].
  set (B2' := put Bp Ya 0 0) in *. clearbody B2'. pose proof HB2 as (P1 & P2 & _). rewrite P1.
  (* the check *)
  assert (Hchk : wp (if check then
        H0 <- win A r 0 m r ;;
        B0 <- (if Nat.ltb m b then Y3 <- win B2' m 0 b c ;; Y3 <- mzd_set_zero Y3 ;; Ok (put B2' Y3 m 0) else Ok B2') ;;
        Y2 <- win B0 r 0 m c ;; Y2 <- mzd_addmul kcache junk true (Some Y2) H0 Ya cutoff ;;
        z <- mzd_is_zero Y2 ;; Ok (put B0 Y2 r 0, z) else Ok (B2', true))
      (fun p => okm b c (fst p) /\
        (check = true -> (snd p = true <-> forall x t, x < m -> t < c -> bitat B (perm (at_ P) m x) t = xsum r (fun k => unit_lower (bitat A) x k && bitat Ya k t)) /\
           (snd p = true -> forall x t, r <= x -> x < b -> t < c -> bitat (fst p) x t = false)) /\
        (check = false -> snd p = true))).
  { destruct check.
    - apply wp_bind, (wp_wind m n A r 0 m r (m - r) r); [apply okm_okd; exact HA|reflexivity|lia|lia|lia|lia|]. intros Hw HHw _ EHw.
      apply wp_bind.
      assert (HB3 : wp (if Nat.ltb m b then Y3 <- win B2' m 0 b c ;; Y3 <- mzd_set_zero Y3 ;; Ok (put B2' Y3 m 0) else Ok B2')
        (fun B3 => okm b c B3 /\ forall i j, i < b -> j < c -> bitat B3 i j = if Nat.leb m i then false else bitat B2' i j)).
      { destruct (Nat.ltb_spec m b) as [Hlt|Hge].
        - apply wp_bind, (wp_win b c B2' m 0 b c (b - m) c); [exact HB2|split; lia|lia|lia|lia|]. intros Y3 HY3 _.
          apply wp_bind, (wp_set_zero (b - m) c); [exact HY3|lia|]. intros Y4 HY4 EY4. apply wp_ok.
          destruct (put_ok b c B2' Y4 m 0 (b - m) c HB2 HY4 ltac:(split; lia) ltac:(lia)) as [HB3 EB3]. split; [exact HB3|].
          intros i j Hi Hjc. rewrite EB3 by assumption.
          destruct (Nat.leb_spec m i), (Nat.ltb_spec i (m + (b - m))), (Nat.leb_spec 0 j), (Nat.ltb_spec j (0 + c)); try lia; cbn [andb]; [|reflexivity].
          apply EY4. lia.
        - apply wp_ok. split; [exact HB2|]. intros i j Hi _. destruct (Nat.leb_spec m i); [lia|reflexivity]. }
      eapply wp_mono; [exact HB3|]. intros B3 [HB3' EB3].
      apply wp_bind, (wp_win b c B3 r 0 m c (m - r) c); [exact HB3'|split; lia|lia|lia|lia|]. intros Yb HYb EYb.
      destruct (addmul_top kcache junk Hj true (m - r) r c (Some Yb) Hw Ya cutoff) as (Yc & EYc & HYc & EEc).
      { exact HHw. } { exact HYa. } { intros M EM. injection EM as <-. exact HYb. }
      { eapply fits_le; [exact F0|lia|lia]. } { exact FL2. } { exact FL3. } { exact Hc. } { exact (HK eq_refl). }
      rewrite EYc. cbn [bind]. apply wp_bind, (wp_is_zero (m - r) c); [exact HYc|exact Hc1|]. intros z Hz. apply wp_ok. cbn [fst snd].
      destruct (put_ok b c B3 Yc r 0 (m - r) c HB3' HYc ltac:(split; lia) ltac:(lia)) as [HB4 EB4]. split; [exact HB4|].
      assert (EYcc : forall x t, r <= x -> x < m -> t < c -> bitat Yc (x - r) t = xorb (bitat B (perm (at_ P) m x) t) (xsum r (fun k => unit_lower (bitat A) x k && bitat Ya k t))).
      { intros x t Hx1 Hx2 Ht. rewrite EEc by lia. cbn [before]. rewrite EYb by lia. replace (r + (x - r)) with x by lia. rewrite Nat.add_0_l.
        rewrite EB3 by lia. destruct (Nat.leb_spec m x); [lia|]. rewrite EB2 by lia. destruct (Nat.ltb_spec x (0 + r)); [lia|]. rewrite andb_false_r. cbn [andb].
        rewrite EBp. f_equal. unfold fmul. apply xsum_ext. intros k Hk. rewrite EHw by lia. replace (r + (x - r)) with x by lia. rewrite Nat.add_0_l.
        unfold unit_lower. destruct (Nat.ltb_spec k x); [reflexivity|lia]. }
      split; [|discriminate]. intros _. split.
      + rewrite Hz. split.
        * intros Z x t Hx Ht. destruct (Nat.lt_ge_cases x r) as [G|G]; [apply ELY; assumption|]. specialize (EYcc x t G Hx Ht).
          rewrite Z in EYcc by lia. symmetry in EYcc. apply xorb_eq. exact EYcc.
        * intros E i t Hi Ht. replace i with ((i + r) - r) by lia. rewrite EYcc by lia. rewrite E by lia. apply xorb_nilpotent.
      + intros Z x t Hx1 Hx2 Ht. rewrite Hz in Z. rewrite EB4 by assumption.
        destruct (Nat.leb_spec r x), (Nat.ltb_spec x (r + (m - r))), (Nat.leb_spec 0 t), (Nat.ltb_spec t (0 + c)); try lia; cbn [andb].
        * apply Z; lia.
        * rewrite EB3 by assumption. destruct (Nat.leb_spec m x); [reflexivity|lia].
    - apply wp_ok. cbn [fst snd]. split; [exact HB2|]. split; [discriminate|reflexivity]. }
  apply wp_bind. eapply wp_mono; [exact Hchk|]. clear Hchk. intros [B5 ok] (HB5 & HT & HF). cbn [fst snd] in HB5, HT, HF.
  apply wp_bind. unfold mzd_trsm_upper_left.
  assert (Dim2 : negb (Nat.eqb (mncols LU) (mnrows Ya)) || negb (Nat.eqb (mnrows LU) (mncols LU)) = false) by (rewrite LU1, LU2, Ya1, Nat.eqb_refl; reflexivity).
  rewrite Dim2. apply (trsm_upper_ok kcache junk cutoff Hj Hc Hraw (S (mnrows Ya)) r c LU Ya); auto; [lia|]. intros Yd IYd.
  pose proof IYd as [HYd _].
  pose proof (upper_win A r c LU Ya Yd ltac:(intros; rewrite ELU by assumption; reflexivity) IYd) as EU.
  destruct (put_ok b c B5 Yd 0 0 r c HB5 HYd ltac:(split; lia) ltac:(lia)) as [HB6 EB6].
  set (B6 := put B5 Yd 0 0) in *. clearbody B6. pose proof HB6 as (G1 & G2 & _). rewrite G1.
  (* what is cleared *)
  assert (Hclr : wp (if check then Ok B6 else for_up r b (fun i B => for_up 0 ((c + 63) / 64) (fun w B => mzd_clear_bits B i (64 * w) (Nat.min 64 (c - 64 * w))) B) B6)
    (fun B7 => okm b c B7 /\ (forall x t, x < r -> t < c -> bitat B7 x t = bitat Yd x t) /\
       (ok = true -> forall x t, r <= x -> x < b -> t < c -> bitat B7 x t = false))).
  { assert (E6 : forall x t, x < r -> t < c -> bitat B6 x t = bitat Yd x t).
    { intros x t Hx Ht. rewrite EB6 by lia. destruct (Nat.leb_spec 0 x), (Nat.ltb_spec x (0 + r)), (Nat.leb_spec 0 t), (Nat.ltb_spec t (0 + c)); try lia.
      cbn [andb]. rewrite !Nat.sub_0_r. reflexivity. }
    destruct check.
    - apply wp_ok. split; [exact HB6|]. split; [exact E6|]. intros Hok x t Hx1 Hx2 Ht. rewrite EB6 by lia.
      destruct (Nat.ltb_spec x (0 + r)); [lia|]. rewrite andb_false_r. cbn [andb]. apply (proj2 (HT eq_refl) Hok); assumption.
    - apply (clear_rows_ok b c); [exact HB6|lia|]. intros B7 HB7 E7. split; [exact HB7|]. split.
      + intros x t Hx Ht. rewrite E7 by lia. destruct (Nat.leb_spec r x); [lia|]. apply E6; assumption.
      + intros _ x t Hx1 Hx2 Ht. rewrite E7 by lia. destruct (Nat.leb_spec r x); [reflexivity|lia]. }
  apply wp_bind. eapply wp_mono; [exact Hclr|]. clear Hclr. intros B7 (HB7 & E7 & Z7).
  apply wp_bind, (apply_p_left_trans_ok b c B7 Q n); [exact HB7|lia|lia|intros i Hi; destruct (HQ i Hi); unfold at_; lia|]. intros X HX EX. apply wp_ok.
  assert (Sol : ok = true -> (forall x t, x < m -> t < c -> bitat B (perm (at_ P) m x) t = xsum r (fun k => unit_lower (bitat A) x k && bitat Ya k t)) ->
     solves m n c A0 (bitat X) (bitat B)).
  { intros Hok E. apply (solve_sound m n r c A0 (bitat A) P Q (bitat B) (bitat B7) (bitat Ya) (bitat X)); auto.
    - intros k t Hk Ht. rewrite <- EU by assumption. apply xsum_ext. intros y Hy. rewrite E7 by assumption. reflexivity.
    - intros y t Hy1 Hy2 Ht. apply Z7; auto; lia. }
  assert (Cons : (exists Xs, solves m n c A0 Xs (bitat B)) ->
     forall x t, x < m -> t < c -> bitat B (perm (at_ P) m x) t = xsum r (fun k => unit_lower (bitat A) x k && bitat Ya k t)).
  { intros [Xs HXs]. apply (solve_complete m n r c A0 (bitat A) P Q (bitat B) (bitat Ya) Xs); assumption. }
  apply HPost; [exact HX| | |exact HF|].
  - intros Hok x t Hx1 Hx2 Ht. rewrite EX. rewrite (iperm_high Q n n) by (auto; lia). apply Z7; auto; lia.
  - intros Hck. destruct (HT Hck) as [HI _]. split.
    + intros Hok. exists (bitat X). apply Sol; [exact Hok|]. apply HI, Hok.
    + intros Hex. apply HI. apply Cons, Hex.
  - intros Hex. apply Sol; [|apply Cons, Hex]. destruct check; [|apply HF; reflexivity]. apply (proj1 (HT eq_refl)). apply Cons, Hex.
Qed.
End Solve.
