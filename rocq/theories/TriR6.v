(** Inversion of triangular matrices, fourth part: mzd_trtri_upper_russian. *)
From Coq Require Import Arith NArith ZArith List Bool Lia ZifyNat.
From Verif Require Import Base Spec LinAlg ModelM4ri SpecM4ri M4ri1 M4ri3 M4ri4 ModelM4ri2 SpecM4ri2 ModelTri ModelPle SpecTri ModelTriR TriR1 TriR3 TriR4 TriR5.
Import ListNotations.
#[local] Ltac Zify.zify_post_hook ::= Z.to_euclidean_division_equations.

Lemma ftab_init : forall C K, ftab C K (repeat 0%N (2 ^ K * stride (wwidth C))).
Proof.
  intros C K. assert (Z : forall x y, tw (stride (wwidth C)) (repeat 0%N (2 ^ K * stride (wwidth C))) x y = 0%N).
  { intros x y. unfold tw. generalize (x * stride (wwidth C) + y) (2 ^ K * stride (wwidth C)). intros i m. revert i. induction m; intros [|i]; cbn; auto. }
  split; [apply repeat_length|]. split; [|intros; apply Z]. intros x y b _ _. rewrite Z, tb_0. discriminate.
Qed.

Lemma trtri_k_ok : forall l3 n A, okm n n A -> (2 ^ 16 <= l3)%N -> 1 <= trtri_k l3 A /\ trtri_k l3 A <= 7.
Proof.
  intros l3 n A (H1 & H2 & _) H. unfold trtri_k. rewrite H1, H2. unfold opt_k, log2_floor. rewrite Nat.min_id.
  set (k := Nat.min 7 (Nat.min 16 (Nat.max 1 (3 * (1 + Nat.log2 n) / 4)))). assert (1 <= k /\ k <= 7) by (unfold k; lia).
  destruct (N.ltb_spec (2 * l3) (3 * 2 ^ N.of_nat k * N.of_nat n)) as [Hl|Hl]; [|exact H0].
  destruct (Nat.eq_dec k 1) as [E|E]; [|lia]. exfalso.
  assert (L2 : Nat.log2 n < 2) by (unfold k in E; lia). assert (n < 4).
  { destruct (Nat.lt_ge_cases n 4) as [|Hn]; [assumption|]. exfalso. pose proof (Nat.log2_le_mono 4 n Hn). change (Nat.log2 4) with 2 in H3. lia. }
  rewrite E in Hl. change (3 * 2 ^ N.of_nat 1)%N with 6%N in Hl. change (2 ^ 16)%N with 65536%N in H. lia.
Qed.

Lemma trtri_upper_russian_ok : forall l3 beyond n A (Q : mzd -> Prop), okm n n A -> (2 ^ 16 <= l3)%N ->
  beyond <> None \/ Nat.odd (wwidth n) = true ->
  (forall i j, i < n -> j < n -> bitat A i j = unit_upper (bitat A) i j) ->
  (forall X, okm n n X -> (forall i j, i < n -> j < n -> fmul n (bitat X) (bitat A) i j = fid i j) ->
     (forall i j, i < n -> j < n -> bitat X i j = unit_upper (bitat X) i j) -> Q X) ->
  wp (trtri_upper_russian l3 beyond A) Q.
Proof.
  intros l3 beyond n A0 Q HA Hl3 HB HU HQ. unfold trtri_upper_russian. rewrite (proj1 HA), (proj1 (proj2 HA)), Nat.eqb_refl. cbn [negb orb].
  destruct (trtri_k_ok l3 n A0 HA Hl3) as [Hk1 Hk2]. set (K := trtri_k l3 A0) in *. clearbody K. destruct (Nat.eqb_spec K 0); [lia|].
  set (U := bitat A0) in *.
  assert (HF : forall A, st n U (pg n n) A -> Q A).
  { intros A [H1 H2]. assert (HR : forall i, i < n -> rowst n U i n (bitat A i)).
    { intros i Hi. pose proof (H2 i Hi) as H. unfold pg in H. destruct (Nat.ltb_spec i n); [exact H|lia]. }
    apply HQ; [exact H1| |].
    - intros i j Hi Hj. destruct (HR i Hi) as (_ & _ & _ & _ & _ & H). unfold fmul, fid. rewrite Nat.eqb_sym. apply H. exact Hj.
    - intros i j Hi Hj. destruct (HR i Hi) as (_ & _ & D & Z & _ & _). unfold unit_upper. destruct (Nat.ltb_spec i j); [reflexivity|].
      destruct (Nat.eqb_spec i j) as [->|]; [exact D|]. apply Z. lia. }
  assert (H0 : st n U (pg 0 0) A0).
  { split; [exact HA|]. intros j Hj. unfold pg. destruct (Nat.ltb_spec j 0); [lia|]. change (bitat A0 j) with (U j). apply rowst_init; [| |exact Hj].
    - intros i Hi y Hy. unfold U. rewrite HU by lia. unfold unit_upper. destruct (Nat.ltb_spec i y); [lia|]. apply Nat.eqb_neq. lia.
    - intros i Hi. unfold U. rewrite HU by lia. unfold unit_upper. destruct (Nat.ltb_spec i i); [lia|]. apply Nat.eqb_refl. }
  clearbody U. clear HQ HU HA.
  assert (Hinit : tabok n K (ple_table_init K n)).
  { unfold ple_table_init, tabok. split; [apply ftab_init|]. split; apply repeat_length. }
  pose (d := ple_table_init K n). apply wp_bind.
  apply (wp_for_up _ (fun g '(A, ts) => st n U (pg (4 * K * g) (4 * K * g)) A /\ length ts = 4 /\ forall z, z < 4 -> tabok n K (nth z ts d))).
  - apply Nat.le_0_l.
  - rewrite Nat.mul_0_r. split; [exact H0|]. split; [reflexivity|]. intros z Hz. do 4 (destruct z; [exact Hinit|]). lia.
  - clear A0 H0. intros g [A ts] _ Hg (HA & Lt & HT). set (r := 4 * K * g) in *.
    assert (Hr : r + 4 * K <= n).
    { assert (4 * K * (g + 1) <= 4 * K * (n / (4 * K))) by (apply Nat.mul_le_mono_l; lia). pose proof (Nat.mul_div_le n (4 * K) ltac:(lia)). unfold r. lia. }
    apply wp_bind.
    apply (wp_for_up _ (fun z '(A, ts) => st n U (pg r (r + z * K)) A /\ length ts = 4 /\ (forall z, z < 4 -> tabok n K (nth z ts d)) /\
      forall i, i < z -> exists E, pletab n K r (r + i * K) K (bitat E) (nth i ts d) /\ forall l, l < K -> rowst n U (r + i * K + l) (r + i * K + K) (bitat E l))).
    + lia.
    + rewrite Nat.mul_0_l, Nat.add_0_r. split; [exact HA|]. split; [exact Lt|]. split; [exact HT|]. intros i Hi. lia.
    + clear A ts HA Lt HT. intros z [A ts] _ Hz (HA & Lt & HT & HE).
      assert (Hzk : z * K <= 3 * K) by (apply Nat.mul_le_mono_r; lia).
      assert (G : aget ts z = Ok (nth z ts d)).
      { destruct (wp_exists _ _ _ (wp_aget _ ts z d (fun y => y = nth z ts d) ltac:(lia) eq_refl)) as (y & Ey & ->). exact Ey. }
      rewrite G.
      change (wp (A <- trtri_sub A (r + z * K) r K ;; U <- ple_to_e A (r + z * K) (r + z * K) K ;; t <- make_table_trtri beyond U 0 (r + z * K) K (nth z ts d) r ;;
              (fun A t => ts <- aset ts z t ;; Ok (A, ts)) A t)
        (fun '(A, ts) => st n U (pg r (r + S z * K)) A /\ length ts = 4 /\ (forall z, z < 4 -> tabok n K (nth z ts d)) /\
         forall i, i < S z -> exists E, pletab n K r (r + i * K) K (bitat E) (nth i ts d) /\ forall l, l < K -> rowst n U (r + i * K + l) (r + i * K + K) (bitat E l))).
      apply (block_ok n U K beyond Hk2 HB A r r (r + z * K) K (nth z ts d)); [exact Hk1|lia|lia|lia|lia|lia|exact HA|apply HT; exact Hz|].
      intros A' E t' HA' _ _ Ht' HR. apply wp_bind, wp_aset; [lia|]. apply wp_ok. split; [|split; [|split]].
      * replace (r + S z * K) with (r + z * K + K) by lia. exact HA'.
      * rewrite length_upd. exact Lt.
      * intros i Hi. rewrite nth_upd by lia. destruct (Nat.eqb_spec i z); [exact (pletab_ok _ _ _ _ _ _ _ Ht')|apply HT; exact Hi].
      * intros i Hi. rewrite nth_upd by lia. destruct (Nat.eqb_spec i z) as [->|]; [exists E; split; [exact Ht'|exact HR]|apply HE; lia].
    + clear A ts HA Lt HT. intros [A ts] (HA & Lt & HT & HE).
      destruct (HE 0 ltac:(lia)) as (E0 & P0 & R0). destruct (HE 1 ltac:(lia)) as (E1 & P1 & R1). destruct (HE 2 ltac:(lia)) as (E2 & P2 & R2). destruct (HE 3 ltac:(lia)) as (E3 & P3 & R3).
      clear HE. destruct ts as [|t0 [|t1 [|t2 [|t3 [|]]]]]; try discriminate Lt. cbn [nth] in P0, P1, P2, P3.
      apply wp_bind, (process_ple_4_ok n U K r K A [t0; t1; t2; t3] [bitat E0; bitat E1; bitat E2; bitat E3]); [exact Hk1|lia|lia|exact Hr|exact HA|reflexivity|reflexivity| | |].
      * cbn [ptabs]. replace (r + 0) with (r + 0 * K) by lia. replace (r + (0 + K)) with (r + 1 * K) by lia. replace (r + (0 + K + K)) with (r + 2 * K) by lia. replace (r + (0 + K + K + K)) with (r + 3 * K) by lia.
        split; [exact P0|]. split; [exact P1|]. split; [exact P2|]. split; [exact P3|exact I].
      * cbn [grows]. replace (r + 0) with (r + 0 * K) by lia. replace (r + (0 + K)) with (r + 1 * K) by lia. replace (r + (0 + K + K)) with (r + 2 * K) by lia. replace (r + (0 + K + K + K)) with (r + 3 * K) by lia.
        split; [exact R0|]. split; [exact R1|]. split; [exact R2|]. split; [exact R3|exact I].
      * intros A' HA'. apply wp_ok. split; [|split; [reflexivity|exact HT]]. replace (4 * K * S g) with (r + 4 * K) by (unfold r; lia). exact HA'.
  - clear A0 H0. intros [A ts] (HA & Lt & HT). apply wp_bind, (wp_aget _ _ _ d); [lia|]. specialize (HT 0 ltac:(lia)). set (t := nth 0 ts d) in *. clearbody t. clear ts Lt. cbv zeta.
    set (r := 4 * K * (n / (4 * K))) in *. assert (Hr : r <= n) by (apply Nat.mul_div_le; lia). clearbody r.
    set (q := (n - r) / K). assert (Hq : n - r = K * q + (n - r) mod K) by (apply Nat.div_mod; lia). assert (Hm : (n - r) mod K < K) by (apply Nat.mod_upper_bound; lia).
    set (m := (n - r) mod K) in *. clearbody q m. apply wp_bind.
    apply (wp_for_up _ (fun s '(A, t) => st n U (pg (r + K * s) (r + K * s)) A /\ tabok n K t)).
    + lia.
    + rewrite Nat.mul_0_r, Nat.add_0_r. split; [exact HA|exact HT].
    + clear A t HA HT. intros s [A t] _ Hs (HA & HT). assert (K * (s + 1) <= K * q) by (apply Nat.mul_le_mono_l; lia).
      apply (trtri_step_ok n U K beyond Hk2 HB A (r + K * s) K t); [exact Hk1|lia|lia|exact HA|exact HT|].
      intros A' t' HA' HT'. split; [|exact HT']. replace (r + K * S s) with (r + K * s + K) by lia. exact HA'.
    + clear A t HA HT. intros [A t] (HA & HT). destruct (Nat.eqb_spec m 0) as [E|E].
      * apply wp_ok, HF. replace (r + K * q) with n in HA by lia. exact HA.
      * apply wp_bind, (trtri_step_ok n U K beyond Hk2 HB A (r + K * q) m t); [lia|lia|lia|exact HA|exact HT|].
        intros A' t' HA' _. apply wp_ok, HF. replace (r + K * q + m) with n in HA' by lia. exact HA'.
Qed.
