(** The block recursive PLE factorisation *)
From Coq Require Import Arith NArith ZArith List Bool Lia ZifyNat.
From Verif Require Import Base Spec LinAlg ModelM4ri SpecM4ri M4ri1 M4riD M4ri14 ModelM4ri2 SpecM4ri2 ModelStrassen Strassen1 Strassen4 ModelTri Tri1 Tri3 ModelPle ModelPle2 SpecTri SpecPle SpecPle2 Ple1 Ple2 Ple3 Ple6 Ple7 Ple8.
Import ListNotations.
#[local] Ltac Zify.zify_post_hook ::= Z.to_euclidean_division_equations.

Lemma pwin_length : forall P lo hi, lo <= hi -> hi <= length P -> length (pwin P lo hi) = hi - lo.
Proof. intros P lo hi H1 H2. unfold pwin. rewrite firstn_length, skipn_length. lia. Qed.
Lemma pput_ok : forall P W lo, lo + length W <= length P ->
  length (pput P W lo) = length P /\
  forall i, at_ (pput P W lo) i = if Nat.leb lo i && Nat.ltb i (lo + length W) then at_ W (i - lo) else at_ P i.
Proof.
  intros P W lo H. unfold pput. split.
  - rewrite !app_length, firstn_length, skipn_length. lia.
  - intros i. unfold at_. destruct (Nat.leb_spec lo i) as [G|G]; cbn [andb].
    + rewrite app_nth2 by (rewrite firstn_length; lia). rewrite firstn_length, Nat.min_l by lia.
      destruct (Nat.ltb_spec i (lo + length W)) as [K|K]; [rewrite app_nth1 by lia; reflexivity|].
      rewrite app_nth2 by lia. rewrite nth_skipn_add. f_equal. lia.
    + rewrite app_nth1 by (rewrite firstn_length; lia). apply nth_firstn_lt. exact G.
Qed.
Lemma at_map_add : forall r P i, i < length P -> at_ (map (Nat.add r) P) i = r + at_ P i.
Proof. intros r P i Hi. unfold at_. rewrite (nth_indep _ 0 (r + 0)) by (rewrite map_length; exact Hi). apply (map_nth (Nat.add r)). Qed.
Lemma at_firstn : forall n P i, i < n -> at_ (firstn n P) i = at_ P i.
Proof. intros. unfold at_. apply nth_firstn_lt. assumption. Qed.

Definition is_ple (f : mzd -> list nat -> list nat -> res (mzd * list nat * list nat * nat)) : Prop :=
  forall m n A P Q, okm m n A -> 0 < n -> length P = m -> length Q = n ->
    exists A' P' Q' r, f A P Q = Ok (A', P', Q', r) /\ okm m n A' /\ ple_of m n r (bitat A) (bitat A') P' Q'.

Lemma naive_is_ple : is_ple ple_naive.
Proof.
  intros m n A P Q HA Hn LP LQ.
  assert (H : exists st, ple_naive A P Q = Ok st /\ let '(A', P', Q', r) := st in okm m n A' /\ ple_of m n r (bitat A) (bitat A') P' Q')
    by (apply wp_exists, (ple_naive_ok m n A P Q); auto).
  destruct H as ([[[A' P'] Q'] r] & E & H1 & H2). exists A', P', Q', r. auto.
Qed.

Lemma ple_of_zero : forall m n A P Q, (forall x y, x < m -> y < n -> A x y = false) -> length P = m -> length Q = n ->
  (forall i, i < m -> at_ P i = i) -> (forall i, i < n -> at_ Q i = i) -> ple_of m n 0 A A P Q.
Proof.
  intros m n A P Q HZ LP LQ EP EQ.
  assert (SP : swaps m P) by (split; [exact LP|]; intros i Hi; change (nth i P 0) with (at_ P i); rewrite EP by exact Hi; lia).
  assert (SQ : swaps n Q) by (split; [exact LQ|]; intros i Hi; change (nth i Q 0) with (at_ Q i); rewrite EQ by exact Hi; lia).
  refine (conj SP (conj SQ (conj _ (conj _ (conj _ (conj _ (conj _ (conj _ _)))))))); try (intros; lia).
  - intros i _ Hi. apply EP, Hi.
  - intros x y Hx Hy. unfold fmul. cbn [xsum]. apply HZ; [|exact Hy]. apply perm_lt; [apply swaps_lt; exact SP|exact Hx].
  - intros x y _ Hx _ Hy. apply HZ; assumption.
Qed.

Section Rec.
Variables (kcache : nat) (junk : nat -> list N) (ple_cutoff cutoff : nat).
Variable russian : mzd -> list nat -> list nat -> res (mzd * list nat * list nat * nat).
Hypothesis Hj : junk_ok junk.
Hypothesis Hc : (N.of_nat cutoff < 2 ^ 29)%N.
Hypothesis Hraw : cutoff = 0 \/ 128 <= cutoff.
Hypothesis Hbase : is_ple russian.

(** The Schur complement *)
Lemma schur_ok : forall m n A n1 mr r1 P1 Q1 D0 A0 (Q : mzd -> Prop), okm m n A -> n1 mod 64 = 0 -> n1 < n -> mr <= m -> fits m n -> fits n m ->
  (forall i j, i < mr -> j < n -> bitat A i j = if Nat.ltb j n1 then D0 i j else A0 i j) -> ple_of mr n1 r1 A0 D0 P1 Q1 ->
  (forall A' X S, okm m n A' ->
     (forall i j, i < m -> j < n -> bitat A' i j = if Nat.ltb i mr && Nat.leb n1 j then (if Nat.ltb i r1 then X i (j - n1) else S (i - r1) (j - n1)) else bitat A i j) ->
     (forall x y, x < r1 -> y < n - n1 -> A0 (perm (at_ P1) mr x) (n1 + y) = xsum r1 (fun k => unit_lower D0 x k && X k y)) ->
     (forall x y, x < mr - r1 -> y < n - n1 -> S x y = xorb (A0 (perm (at_ P1) mr (r1 + x)) (n1 + y)) (xsum r1 (fun k => D0 (r1 + x) k && X k y))) -> Q A') ->
  wp (if Nat.eqb r1 0 then Ok A
      else
        A1 <- win A 0 n1 mr n ;; A1 <- mzd_apply_p_left A1 P1 ;;
        let A := put A A1 0 n1 in
        A00 <- win A 0 0 r1 r1 ;; A01 <- win A 0 n1 r1 n ;;
        A01 <- trsm_lower kcache junk (S r1) cutoff A00 A01 ;;
        let A := put A A01 0 n1 in
        A10 <- win A r1 0 mr r1 ;; A11 <- win A r1 n1 mr n ;;
        A11 <- mzd_addmul kcache junk true (Some A11) A10 A01 cutoff ;;
        Ok (put A A11 r1 n1)) Q.
Proof.
  intros m n A n1 mr r1 P1 Q1 D0 A0 Q HA Hn1 Hn1n Hmr F0 F1 EA HP HQ.
  pose proof HP as (SP & _ & Rm & Rn & I1 & _). pose proof SP as [LP HPv].
  destruct (Nat.eqb_spec r1 0) as [->|Hr].
  - apply wp_ok, (HQ A (fun _ _ => false) (fun x y => A0 x (n1 + y))); [exact HA| | |].
    + intros i j Hi Hjn. destruct (Nat.ltb_spec i mr), (Nat.leb_spec n1 j); cbn [andb]; try reflexivity.
      destruct (Nat.ltb_spec i 0); [lia|]. rewrite Nat.sub_0_r. rewrite EA by lia. destruct (Nat.ltb_spec j n1); [lia|]. f_equal. lia.
    + intros; lia.
    + intros x y Hx Hy. cbn [xsum]. rewrite xorb_false_r. rewrite (perm_tail (at_ P1) 0 mr); [reflexivity|lia|exact I1].
  - apply wp_bind, (wp_win m n A 0 n1 mr n mr (n - n1)); [exact HA|split; lia|lia|lia|lia|]. intros W1 HW1 EW1.
    apply wp_bind, (apply_p_left_ok mr (n - n1) W1 P1 mr); [exact HW1|lia|lia|intros i Hi; apply HPv; exact Hi|]. intros W2 HW2 EW2. cbv zeta.
    destruct (put_ok m n A W2 0 n1 mr (n - n1) HA HW2 ltac:(split; lia) ltac:(lia)) as [HA1 EA1].
    set (A1 := put A W2 0 n1) in *. clearbody A1.
    assert (HmP : forall x, x < mr -> perm (at_ P1) mr x < mr) by (intros x Hx; apply perm_lt; [apply swaps_lt; exact SP|exact Hx]).
    assert (B1 : forall i j, i < m -> j < n -> bitat A1 i j = if Nat.ltb i mr && Nat.leb n1 j then A0 (perm (at_ P1) mr i) j else bitat A i j).
    { intros i j Hi Hjn. rewrite EA1 by assumption. destruct (Nat.ltb_spec i (0 + mr)), (Nat.ltb_spec i mr), (Nat.leb_spec 0 i), (Nat.leb_spec n1 j), (Nat.ltb_spec j (n1 + (n - n1))); try lia; cbn [andb]; try reflexivity.
      rewrite Nat.sub_0_r, EW2, EW1 by ((apply HmP; lia) || lia). rewrite Nat.add_0_l. rewrite EA by ((apply HmP; lia) || lia). destruct (Nat.ltb_spec (n1 + (j - n1)) n1); [lia|]. f_equal. lia. }
    apply wp_bind, (wp_wind m n A1 0 0 r1 r1 r1 r1); [apply okm_okd; exact HA1|reflexivity|lia|lia|lia|lia|]. intros LU HLU _ ELU.
    apply wp_bind, (wp_win m n A1 0 n1 r1 n r1 (n - n1)); [exact HA1|split; lia|lia|lia|lia|]. intros Y HY EY.
    apply wp_bind, (trsm_lower_ok kcache junk cutoff Hj Hc (S r1) r1 (n - n1) LU Y); auto;
      [lia|eapply fits_le; [exact F0|lia|lia]|eapply fits_le; [exact F0|lia|lia]|eapply fits_le; [exact F1|lia|lia]|].
    intros X IX. pose proof IX as [HX IX']. cbv zeta.
    assert (EX : forall x y, x < r1 -> y < n - n1 -> A0 (perm (at_ P1) mr x) (n1 + y) = xsum r1 (fun k => unit_lower D0 x k && bitat X k y)).
    { intros x y Hx Hy. transitivity (bitat Y x y).
      - rewrite EY by assumption. rewrite Nat.add_0_l. rewrite B1 by lia. destruct (Nat.ltb_spec x mr), (Nat.leb_spec n1 (n1 + y)); try lia. reflexivity.
      - rewrite <- (IX' x y Hx Hy). rewrite <- (unit_lower_sum r1 (bitat LU) (bitat X) x y Hx). unfold fmul. apply xsum_ext. intros k Hk. unfold unit_lower.
        rewrite ELU by assumption. rewrite !Nat.add_0_l. rewrite B1 by lia. destruct (Nat.leb_spec n1 k); [lia|]. rewrite andb_false_r, EA by lia.
        destruct (Nat.ltb_spec k n1); [reflexivity|lia]. }
    destruct (put_ok m n A1 X 0 n1 r1 (n - n1) HA1 HX ltac:(split; lia) ltac:(lia)) as [HA2 EA2].
    set (A2 := put A1 X 0 n1) in *. clearbody A2.
    apply wp_bind, (wp_wind m n A2 r1 0 mr r1 (mr - r1) r1); [apply okm_okd; exact HA2|reflexivity|lia|lia|lia|lia|]. intros W10 HW10 _ EW10.
    apply wp_bind, (wp_win m n A2 r1 n1 mr n (mr - r1) (n - n1)); [exact HA2|split; lia|lia|lia|lia|]. intros W11 HW11 EW11.
    destruct (addmul_top kcache junk Hj true (mr - r1) r1 (n - n1) (Some W11) W10 X cutoff) as (W & EW & HW & EEW).
    { exact HW10. } { exact HX. } { intros M EM. injection EM as <-. exact HW11. }
    { eapply fits_le; [exact F0|lia|lia]. } { eapply fits_le; [exact F0|lia|lia]. } { eapply fits_le; [exact F1|lia|lia]. } { exact Hc. }
    { left. unfold cuts. destruct Hraw; [left|right; left]; assumption. }
    rewrite EW. cbn [bind]. apply wp_ok.
    destruct (put_ok m n A2 W r1 n1 (mr - r1) (n - n1) HA2 HW ltac:(split; lia) ltac:(lia)) as [HA3 EA3].
    apply (HQ _ (bitat X) (bitat W)); [exact HA3| |exact EX|].
    + intros i j Hi Hjn. rewrite EA3, EA2, B1 by assumption.
      destruct (Nat.leb_spec r1 i), (Nat.ltb_spec i (r1 + (mr - r1))), (Nat.leb_spec n1 j), (Nat.ltb_spec j (n1 + (n - n1))), (Nat.leb_spec 0 i), (Nat.ltb_spec i (0 + r1)), (Nat.ltb_spec i mr), (Nat.ltb_spec i r1); try lia; cbn [andb]; try reflexivity.
      rewrite Nat.sub_0_r. reflexivity.
    + intros x y Hx Hy. rewrite EEW by assumption. cbn [before]. rewrite EW11, EA2, B1 by lia.
      destruct (Nat.ltb_spec (r1 + x) (0 + r1)); [lia|]. rewrite andb_false_r. cbn [andb]. destruct (Nat.ltb_spec (r1 + x) mr), (Nat.leb_spec n1 (n1 + y)); try lia. cbn [andb].
      f_equal. unfold fmul. apply xsum_ext. intros k Hk. rewrite EW10, EA2, B1 by lia. rewrite !Nat.add_0_l.
      destruct (Nat.ltb_spec (r1 + x) r1); [lia|]. rewrite andb_false_r. cbn [andb]. destruct (Nat.leb_spec n1 k); [lia|]. rewrite andb_false_r, EA by lia.
      destruct (Nat.ltb_spec k n1); [reflexivity|lia].
Qed.

Lemma ple_rec_ok : forall fuel m n A P Q (Post : mzd * list nat * list nat * nat -> Prop), n < fuel -> okm m n A -> 0 < n -> length P = m -> length Q = n ->
  fits m n -> fits n m ->
  (forall A' P' Q' r, okm m n A' -> ple_of m n r (bitat A) (bitat A') P' Q' -> Post (A', P', Q', r)) ->
  wp (mzd_ple_rec kcache junk ple_cutoff russian fuel cutoff A P Q) Post.
Proof.
  induction fuel as [|fuel IH]; intros m n A P Q Post Hf HA Hn LP LQ F0 F1 HPost; [lia|]. cbn [mzd_ple_rec].
  pose proof HA as (A1 & A2 & _). rewrite A1, A2. cbv zeta.
  apply wp_bind, (first_zero_row_ok m n A); auto. intros mr Hmr HZ _.
  apply wp_bind, (rest_id_ok P mr m); auto. intros P0 LP0 EP0. apply wp_bind, (rest_id_ok Q 0 n); [exact LQ|lia|]. intros Q0 LQ0 EQ0'.
  assert (EQ0 : forall k, k < n -> at_ Q0 k = k) by (intros k Hk; rewrite EQ0' by exact Hk; reflexivity). clear EQ0'.
  destruct (Nat.eqb_spec mr 0) as [Hm0|Hm0].
  { apply wp_ok, HPost; [exact HA|]. apply ple_of_zero; auto.
    - intros x y Hx _. apply HZ; lia.
    - intros i Hi. rewrite EP0 by exact Hi. destruct (Nat.ltb_spec i mr); [lia|reflexivity]. }
  destruct (Nat.leb n 64 || Nat.leb (mwidth A * m) ple_cutoff) eqn:Hcase.
  { apply wp_bind, (wp_copy_onto m n); [apply init_ok|exact HA|exact Hn|]. intros Ab HAb EAb.
    destruct (Hbase m n Ab P0 Q0 HAb Hn LP0 LQ0) as (A' & P' & Q' & r & Er & HA' & Hple). rewrite Er. cbn [bind].
    apply wp_bind, (wp_copy_onto m n); [exact HA|exact HA'|exact Hn|]. intros A3 HA3 EA3. apply wp_ok, HPost; [exact HA3|].
    eapply ple_of_ext; [exact Hple| |]; intros x y Hx _; [symmetry; apply EAb; exact Hx|apply EA3; exact Hx]. }
  apply orb_false_iff in Hcase as [H64 _]. apply Nat.leb_gt in H64.
  set (n1 := ((n - 1) / 64 + 1) / 2 * 64). assert (Hn1 : n1 mod 64 = 0 /\ 0 < n1 /\ n1 < n) by (unfold n1; lia). destruct Hn1 as (Hn1 & Hn1p & Hn1n). clearbody n1.
  apply wp_bind, (wp_win m n A 0 0 mr n1 mr n1); [exact HA|split; lia|lia|lia|lia|]. intros W0 HW0 EW0.
  apply wp_bind, (IH mr n1 W0); [lia|exact HW0|exact Hn1p|rewrite pwin_length by lia; lia|rewrite pwin_length by lia; lia|eapply fits_le; [exact F0|lia|lia]|eapply fits_le; [exact F1|lia|lia]|].
  intros D0 P1 Q1 r1 HD0 HP1. apply (ple_of_ext _ _ _ _ (bitat A) _ (bitat D0)) in HP1; [|intros x y Hx Hy; rewrite EW0 by assumption; reflexivity|reflexivity].
  pose proof HP1 as ([LP1 HPv1] & [LQ1 HQv1] & Rm1 & Rn1 & _ & _ & _ & _ & Zb).
  destruct (put_ok m n A D0 0 0 mr n1 HA HD0 ltac:(split; lia) ltac:(lia)) as [HB EB]. set (B := put A D0 0 0) in *. clearbody B.
  destruct (pput_ok P0 P1 0 ltac:(lia)) as [LPa EPa]. set (Pa := pput P0 P1 0) in *. clearbody Pa.
  destruct (pput_ok Q0 Q1 0 ltac:(lia)) as [LQa EQa]. set (Qa := pput Q0 Q1 0) in *. clearbody Qa.
  apply wp_bind, (schur_ok m n B n1 mr r1 P1 Q1 (bitat D0) (bitat A)); auto.
  { intros i j Hi Hjn. rewrite EB by lia. destruct (Nat.leb_spec 0 i), (Nat.ltb_spec i (0 + mr)), (Nat.leb_spec 0 j), (Nat.ltb_spec j (0 + n1)), (Nat.ltb_spec j n1); try lia; cbn [andb]; try reflexivity.
    rewrite !Nat.sub_0_r. reflexivity. }
  intros B2 X S2 HB2 EB2 HX HS.
  assert (C2 : forall i j, i < m -> j < n -> bitat B2 i j = if Nat.ltb i mr then (if Nat.ltb j n1 then bitat D0 i j else if Nat.ltb i r1 then X i (j - n1) else S2 (i - r1) (j - n1)) else false).
  { intros i j Hi Hjn. rewrite EB2, EB by assumption.
    destruct (Nat.ltb_spec i mr), (Nat.leb_spec n1 j), (Nat.leb_spec 0 i), (Nat.ltb_spec i (0 + mr)), (Nat.leb_spec 0 j), (Nat.ltb_spec j (0 + n1)), (Nat.ltb_spec j n1); try lia; cbn [andb]; rewrite ?Nat.sub_0_r; try reflexivity; apply HZ; lia. }
  clear EB2 EB HB B.
  apply wp_bind, (wp_win m n B2 r1 n1 mr n (mr - r1) (n - n1)); [exact HB2|split; lia|lia|lia|lia|]. intros W1 HW1 EW1.
  apply wp_bind, (IH (mr - r1) (n - n1) W1); [lia|exact HW1|lia|rewrite pwin_length by lia; lia|rewrite pwin_length by lia; lia|eapply fits_le; [exact F0|lia|lia]|eapply fits_le; [exact F1|lia|lia]|].
  intros D2 P2 Q2 r2 HD2 HP2.
  apply (ple_of_ext _ _ _ _ S2 _ (bitat D2)) in HP2; [| |reflexivity].
  2: { intros x y Hx Hy. rewrite EW1, C2 by lia. destruct (Nat.ltb_spec (r1 + x) mr), (Nat.ltb_spec (n1 + y) n1), (Nat.ltb_spec (r1 + x) r1); try lia.
       f_equal; lia. }
  pose proof HP2 as (SP2 & SQ2 & Rm2 & Rn2 & _ & _ & _ & _ & Zd). pose proof SP2 as [LP2 HPv2]. pose proof SQ2 as [LQ2 HQv2].
  destruct (put_ok m n B2 D2 r1 n1 (mr - r1) (n - n1) HB2 HD2 ltac:(split; lia) ltac:(lia)) as [HB3 EB3]. set (B3 := put B2 D2 r1 n1) in *. clearbody B3.
  assert (C3 : forall i j, i < m -> j < n -> bitat B3 i j = if Nat.ltb i mr then (if Nat.ltb j n1 then bitat D0 i j else if Nat.ltb i r1 then X i (j - n1) else bitat D2 (i - r1) (j - n1)) else false).
  { intros i j Hi Hjn. rewrite EB3, C2 by assumption.
    destruct (Nat.ltb_spec i mr), (Nat.leb_spec r1 i), (Nat.ltb_spec i (r1 + (mr - r1))), (Nat.leb_spec n1 j), (Nat.ltb_spec j (n1 + (n - n1))), (Nat.ltb_spec j n1), (Nat.ltb_spec i r1); try lia; reflexivity. }
  clear C2 EB3 HB2 B2 EW1 HW1 W1.
  assert (W64 : 64 * wwidth r1 <= n1) by (unfold wwidth; lia).
  apply wp_bind, (win_pad m n B3 r1 mr (mr - r1) r1); [exact HB3|lia|lia|lia| |].
  { intros i j Hi Hj1 Hj2. rewrite C3 by lia. destruct (Nat.ltb_spec (r1 + i) mr), (Nat.ltb_spec j n1); try lia. apply Zb; lia. }
  intros W2 HW2 EW2. apply wp_bind.
  assert (HAP : wp (mzd_apply_p_left W2 P2) (fun W => okm (mr - r1) r1 W /\ forall x j, x < mr - r1 -> j < r1 -> bitat W x j = bitat W2 (perm (at_ P2) (mr - r1) x) j)).
  { destruct (Nat.eq_dec r1 0) as [E0|E0].
    - unfold mzd_apply_p_left. pose proof HW2 as (_ & K & _). rewrite K. destruct (Nat.eqb_spec r1 0); [|lia]. apply wp_ok. split; [exact HW2|]. intros; lia.
    - apply (apply_p_left_ok (mr - r1) r1 W2 P2 (mr - r1)); [exact HW2|lia|lia|intros i Hi; apply HPv2; exact Hi|]. intros W HW EW. split; [exact HW|]. intros x j _ _. apply EW. }
  eapply wp_mono; [exact HAP|]. intros W3 [HW3 EW3]. clear HAP.
  destruct (put_pad m n B3 W3 r1 (mr - r1) r1 HB3 HW3 ltac:(lia) ltac:(lia)) as [HB4 EB4]. set (B4 := put B3 W3 r1 0) in *. clearbody B4.
  assert (C4 : forall i j, i < m -> j < n -> bitat B4 i j = if Nat.ltb i mr then joined r1 n1 mr (bitat D0) (bitat D2) X (at_ P2) i j else false).
  { intros i j Hi Hjn. rewrite EB4, C3 by assumption. unfold joined. destruct (Nat.ltb_spec i mr) as [G|G].
    - destruct (Nat.ltb_spec i r1) as [G1|G1].
      + destruct (Nat.leb_spec r1 i); [lia|]. cbn [andb]. reflexivity.
      + destruct (Nat.leb_spec r1 i), (Nat.ltb_spec i (r1 + (mr - r1))); try lia. cbn [andb].
        assert (Hp : perm (at_ P2) (mr - r1) (i - r1) < mr - r1) by (apply perm_lt; [apply swaps_lt; exact SP2|lia]).
        destruct (Nat.ltb_spec j r1) as [G2|G2].
        * destruct (Nat.ltb_spec j (64 * wwidth r1)); [|unfold wwidth in *; lia]. rewrite EW3, EW2, C3 by lia.
          destruct (Nat.ltb_spec (r1 + perm (at_ P2) (mr - r1) (i - r1)) mr), (Nat.ltb_spec j n1); try lia. reflexivity.
        * destruct (Nat.ltb_spec j (64 * wwidth r1)).
          -- destruct (Nat.ltb_spec j n1); [|lia]. destruct (bitat W3 (i - r1) j) eqn:Eb; [|reflexivity]. apply (bitat_in (mr - r1) r1 W3) in Eb; [lia|exact HW3|lia].
          -- destruct (Nat.ltb_spec j n1); [|reflexivity]. apply Zb; lia.
    - destruct (Nat.ltb_spec i (r1 + (mr - r1))); [lia|]. rewrite andb_false_r. reflexivity. }
  clear EB4 C3 HB3 B3 EW3 HW3 W3 EW2 HW2 W2.
  destruct (pput_ok Pa (map (Nat.add r1) P2) r1 ltac:(rewrite map_length; lia)) as [LPb EPb]. rewrite map_length in EPb. set (Pb := pput Pa _ r1) in *. clearbody Pb.
  destruct (pput_ok Qa (map (Nat.add n1) Q2) n1 ltac:(rewrite map_length; lia)) as [LQb EQb]. rewrite map_length in EQb. set (Qb := pput Qa _ n1) in *. clearbody Qb.
  assert (EP : forall i, i < m -> at_ Pb i = if Nat.ltb i r1 then at_ P1 i else if Nat.ltb i mr then r1 + at_ P2 (i - r1) else i).
  { intros i Hi. rewrite EPb, EPa, EP0 by exact Hi.
    destruct (Nat.leb_spec r1 i), (Nat.ltb_spec i (r1 + length P2)), (Nat.ltb_spec i r1), (Nat.ltb_spec i mr), (Nat.leb_spec 0 i), (Nat.ltb_spec i (0 + length P1)); try lia; cbn [andb]; try lia.
    all: try (apply at_map_add; lia). all: rewrite ?Nat.sub_0_r; reflexivity. }
  assert (EQ : forall i, i < n -> at_ Qb i = if Nat.ltb i n1 then at_ Q1 i else n1 + at_ Q2 (i - n1)).
  { intros i Hi. rewrite EQb, EQa.
    destruct (Nat.leb_spec n1 i), (Nat.ltb_spec i (n1 + length Q2)), (Nat.ltb_spec i n1), (Nat.leb_spec 0 i), (Nat.ltb_spec i (0 + length Q1)); try lia; cbn [andb]; try lia.
    all: try (apply at_map_add; lia). all: rewrite ?Nat.sub_0_r; reflexivity. }
  apply wp_bind.
  apply (wp_for_up _ (fun t Q' => length Q' = n /\ forall i, i < n -> at_ Q' i = if Nat.leb r1 i && Nat.ltb i (r1 + t) then at_ Qb (i + (n1 - r1)) else at_ Qb i)).
  { lia. }
  { split; [lia|]. intros i Hi. destruct (Nat.leb_spec r1 i), (Nat.ltb_spec i (r1 + 0)); try lia; reflexivity. }
  { intros t Q' _ Ht [LQ' EQ']. apply wp_bind, (wp_aget _ _ _ 0); [lia|]. apply wp_aset; [lia|]. split; [rewrite length_upd; exact LQ'|].
    intros i Hi. rewrite at_upd by lia. change (nth (n1 + t) Q' 0) with (at_ Q' (n1 + t)). rewrite !EQ' by lia.
    destruct (Nat.eqb_spec i (r1 + t)) as [->|].
    - destruct (Nat.leb_spec r1 (n1 + t)), (Nat.ltb_spec (n1 + t) (r1 + t)), (Nat.leb_spec r1 (r1 + t)), (Nat.ltb_spec (r1 + t) (r1 + S t)); try lia; cbn [andb]. f_equal. lia.
    - destruct (Nat.leb_spec r1 i), (Nat.ltb_spec i (r1 + t)), (Nat.ltb_spec i (r1 + S t)); try lia; reflexivity. }
  intros Qc [LQc EQc].
  apply wp_bind, (compress_l_ok m n B4 r1 n1 r2); [exact HB4|lia|exact Hn1|exact Hn1n|lia|lia| | |].
  { intros i j Hi1 Hi2 Hj1 Hj2. rewrite C4 by lia. unfold joined. destruct (Nat.ltb_spec i mr), (Nat.ltb_spec i r1), (Nat.ltb_spec j r1), (Nat.ltb_spec j n1); try lia; reflexivity. }
  { intros i j Hi1 Hi2 Hj1 Hj2. rewrite C4 by lia. unfold joined. destruct (Nat.ltb_spec i mr), (Nat.ltb_spec i r1), (Nat.ltb_spec j r1), (Nat.ltb_spec j n1); try lia; try reflexivity. apply Zd; lia. }
  intros A' HA' EA'. apply wp_ok, HPost; [exact HA'|].
  assert (EQ1 : forall i, i < n -> at_ Qc i = if Nat.ltb i r1 then at_ Q1 i else if Nat.ltb i (r1 + r2) then n1 + at_ Q2 (i - r1) else at_ Qb i).
  { intros i Hi. rewrite EQc by exact Hi. destruct (Nat.leb_spec r1 i), (Nat.ltb_spec i (r1 + r2)), (Nat.ltb_spec i r1); try lia; cbn [andb]; rewrite ?EQ by lia; try reflexivity.
    { destruct (Nat.ltb_spec (i + (n1 - r1)) n1); [lia|]. f_equal. f_equal. lia. }
    all: destruct (Nat.ltb_spec i n1); [reflexivity|lia]. }
  apply (ple_extend mr m n (r1 + r2) (bitat A) (bitat A') (firstn mr Pb) Qc Pb); [exact Hmr| | | |lia|].
  - apply (ple_combine mr n n1 r1 r2 (bitat A) (bitat D0) X S2 (bitat D2) (bitat A') (firstn mr Pb) Qc P1 Q1 P2 Q2); auto.
    + lia.
    + intros x y Hx Hy. rewrite EA' by lia. destruct (Nat.ltb_spec x r1) as [G|G].
      * rewrite C4 by lia. destruct (Nat.ltb_spec x mr); [reflexivity|lia].
      * unfold moved_left. destruct (Nat.ltb_spec y r1); [|destruct (Nat.ltb_spec y (r1 + Nat.min (x - r1 + 1) r2)); [|destruct (Nat.ltb_spec y (n1 + Nat.min (x - r1 + 1) r2)); [reflexivity|]]];
          rewrite C4 by lia; destruct (Nat.ltb_spec x mr); try lia; reflexivity.
    + rewrite firstn_length. lia.
    + intros i Hi. rewrite at_firstn, EP by lia. destruct (Nat.ltb_spec i mr); [reflexivity|lia].
    + split; [exact LQc|]. intros i Hi. change (nth i Qc 0) with (at_ Qc i). rewrite EQ1, EQ by exact Hi.
      destruct (Nat.ltb_spec i r1) as [G1|G1]; [pose proof (HQv1 i ltac:(lia)); unfold at_; lia|].
      destruct (Nat.ltb_spec i (r1 + r2)) as [G2|G2]; [pose proof (HQv2 (i - r1) ltac:(lia)); unfold at_; lia|].
      destruct (Nat.ltb_spec i n1) as [G3|G3]; [pose proof (HQv1 i ltac:(lia)); unfold at_; lia|pose proof (HQv2 (i - n1) ltac:(lia)); unfold at_; lia].
    + intros i Hi. rewrite EQ1 by lia. destruct (Nat.ltb_spec i r1), (Nat.ltb_spec i (r1 + r2)); try lia; reflexivity.
  - intros x y Hx1 Hx2 _. apply HZ; assumption.
  - intros x y Hx1 Hx2 Hy. rewrite EA' by exact Hx2. destruct (Nat.ltb_spec x r1); [lia|].
    unfold moved_left. destruct (Nat.ltb_spec y r1); [|destruct (Nat.ltb_spec y (r1 + Nat.min (x - r1 + 1) r2)); [|destruct (Nat.ltb_spec y (n1 + Nat.min (x - r1 + 1) r2)); [reflexivity|]]];
      rewrite C4 by lia; destruct (Nat.ltb_spec x mr); try lia; reflexivity.
  - intros i Hi. rewrite EP by exact Hi. destruct (Nat.ltb_spec i mr) as [G|G].
    + rewrite at_firstn, EP by lia. destruct (Nat.ltb_spec i mr); [reflexivity|lia].
    + destruct (Nat.ltb_spec i r1); [lia|reflexivity].
Qed.
End Rec.
