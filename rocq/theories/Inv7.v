(** Proofs about github7: Gauss elimination with a search for the largest element *)
From Coq Require Import Arith ZArith QArith Qcanon List Bool Lia.
From Verif Require Import Base ModelSM4 WBSM4 SpecQ ModelInv Lap Inv0 Inv4.
Import ListNotations.
Open Scope nat_scope.

Lemma ltb_S : forall c k, c <> k -> (c <? S k) = (c <? k).
Proof. intros c k H. destruct (Nat.ltb_spec c k), (Nat.ltb_spec c (S k)); auto; lia. Qed.
Lemma ltb_Sk : forall k, (k <? S k) = true.
Proof. intros k. apply Nat.ltb_lt. lia. Qed.

Lemma g7_swapRows_wp : forall n m j t (Q : rmatrix -> Prop), dims2 n n m -> j < n -> t < n -> t <> j ->
  (forall m', dims2 n n m' ->
     (forall i k, i < n -> k < n -> ent m' i k = ent m (if Nat.eqb i j then t else if Nat.eqb i t then j else i) k) -> Q m') ->
  wp (g7_swapRows n m j t) Q.
Proof.
  intros n m j t Q HD Hj Ht Htj HQ. unfold g7_swapRows.
  apply wp_for_up with (I := fun k a' => dims2 n n a' /\
      forall i c, ent a' i c = if c <? k then ent m (if Nat.eqb i j then t else if Nat.eqb i t then j else i) c else ent m i c); [lia| | |].
  - split; auto.
  - intros k a1 _ Hk (D1 & E1).
    apply wp_bind. apply wp_get2 with (d := 0%Qc) (n := n) (m := n); auto.
    apply wp_bind. apply wp_get2 with (d := 0%Qc) (n := n) (m := n); auto.
    apply wp_bind. apply wp_set2 with (d := 0%Qc) (n := n) (m := n); auto. intros a2 D2 E2 _.
    apply wp_set2 with (d := 0%Qc) (n := n) (m := n); auto. intros a3 D3 E3 _. split; auto.
    intros i c. unfold ent in *. rewrite E3, E2, !E1. rewrite (Nat.ltb_irrefl k).
    destruct (Nat.eqb_spec c k) as [->|Hc].
    + rewrite ltb_Sk, (Nat.ltb_irrefl k). destruct (Nat.eqb_spec i t) as [->|]; cbn [andb].
      { destruct (Nat.eqb_spec t j); [lia|]. auto. }
      destruct (Nat.eqb_spec i j) as [->|]; auto.
    + rewrite !andb_false_r, ltb_S by auto. auto.
  - intros a1 (D1 & E1). apply HQ; auto. intros i k Hi Hk. rewrite E1.
    replace (k <? n) with true by (symmetry; apply Nat.ltb_lt; lia). auto.
Qed.

Definition big (x : Qc) : Prop := ~ (- 2 ^ 31 < q_trunc x < 2 ^ 31)%Z.
Lemma g7_abs_wpu : forall (P : Prop) x (Q : Z -> Prop), (big x -> P) -> Q (Z.abs (q_trunc x)) -> wpu P (g7_abs x) Q.
Proof.
  intros P x Q HP HQ. unfold g7_abs. cbv zeta.
  destruct (Z.ltb_spec (- 2 ^ 31) (q_trunc x)); cbn [andb]; [|apply HP; unfold big; lia].
  destruct (Z.ltb_spec (q_trunc x) (2 ^ 31)); [exact HQ|apply HP; unfold big; lia].
Qed.
Lemma g7_mainElement_wpu : forall (P : Prop) n m l (Q : nat * nat -> Prop), dims2 n n m -> l < n ->
  (forall i j, i < n -> j < n -> big (ent m i j) -> P) ->
  (forall r c, l <= r < n -> l <= c < n ->
     ((forall i j, i < n -> j < n -> (Z.abs (q_trunc (ent m i j)) <= Z.abs (q_trunc (ent m l l)))%Z) -> r = l /\ c = l) ->
     Q (r, c)) ->
  wpu P (g7_mainElement n m l) Q.
Proof.
  intros P n m l Q HD Hl HP HQ. unfold g7_mainElement.
  pose (J := fun st : Z * nat * nat => let '(e, r, c) := st in l <= r < n /\ l <= c < n /\
     ((forall i j, i < n -> j < n -> (Z.abs (q_trunc (ent m i j)) <= Z.abs (q_trunc (ent m l l)))%Z) ->
        r = l /\ c = l /\ e = Z.abs (q_trunc (ent m l l)))).
  apply wpu_bind. apply wpu_get2 with (d := 0%Qc) (n := n) (m := n); auto.
  apply wpu_bind. apply g7_abs_wpu; [apply (HP l l); auto|].
  apply wpu_bind. apply wpu_for_up with (I := fun _ st => J st); [lia| | |].
  - cbn. repeat split; auto.
  - intros i st Hi1 Hi2 HJ. apply wpu_for_up with (I := fun _ st => J st); [lia|exact HJ| |auto].
    intros j [[e r] c] Hj1 Hj2 (Hr & Hc & HM).
    apply wpu_bind. apply wpu_get2 with (d := 0%Qc) (n := n) (m := n); auto.
    apply wpu_bind. apply g7_abs_wpu; [apply (HP i j); auto|]. cbn [wpu].
    destruct (Z.ltb_spec e (Z.abs (q_trunc (at2 0%Qc m i j)))) as [L|L]; [|repeat split; try lia; auto; apply HM; auto].
    cbn [J]. split; [lia|]. split; [lia|]. intros HA. exfalso. destruct (HM HA) as (_ & _ & ->).
    pose proof (HA i j Hi2 Hj2) as HA1. change (at2 0%Qc m i j) with (ent m i j) in L. lia.
  - intros [[e r] c] (Hr & Hc & HM). cbn [wpu]. apply HQ; auto. intros HA. destruct (HM HA) as (E1 & E2 & _). auto.
Qed.

Lemma g7_extractRow_wp : forall n m i (Q : list Qc -> Prop), dims2 n n m -> i < n ->
  (forall b, length b = n -> (forall k, k < n -> nth k b 0%Qc = ent m i k) -> Q b) -> wp (g7_extractRow n m i) Q.
Proof.
  intros n m i Q HD Hi HQ. unfold g7_extractRow.
  apply wp_for_up with (I := fun e b => length b = n /\ forall k, k < e -> nth k b 0%Qc = ent m i k); [lia| | |].
  - split; [apply repeat_length|intros; lia].
  - intros e b _ He (L & E). apply wp_bind. apply wp_get2 with (d := 0%Qc) (n := n) (m := n); auto.
    apply wp_aset; [lia|]. split; [rewrite length_upd; auto|]. intros k Hk. rewrite nth_upd by lia.
    destruct (Nat.eqb_spec k e) as [->|]; auto. apply E; lia.
  - intros b (L & E). apply HQ; auto.
Qed.
Lemma g7_multiplyRow_wp : forall n b s (Q : list Qc -> Prop), length b = n ->
  (forall b', length b' = n -> (forall k, k < n -> nth k b' 0%Qc = (nth k b 0 * s)%Qc) -> Q b') -> wp (g7_multiplyRow n b s) Q.
Proof.
  intros n b s Q HL HQ. unfold g7_multiplyRow.
  apply wp_for_up with (I := fun e b' => length b' = n /\ forall k, k < n -> nth k b' 0%Qc = if k <? e then (nth k b 0 * s)%Qc else nth k b 0%Qc); [lia| | |].
  - split; auto.
  - intros e b' _ He (L & E). apply wp_bind. apply wp_aget with (d := 0%Qc); [lia|].
    apply wp_aset; [lia|]. split; [rewrite length_upd; auto|]. intros k Hk. rewrite nth_upd by lia.
    destruct (Nat.eqb_spec k e) as [->|].
    + rewrite ltb_Sk, E, Nat.ltb_irrefl by auto. auto.
    + rewrite ltb_S by auto. apply E; auto.
  - intros b' (L & E). apply HQ; auto. intros k Hk. rewrite E by auto.
    replace (k <? n) with true by (symmetry; apply Nat.ltb_lt; lia). auto.
Qed.
Lemma g7_subtractRow_wp : forall n m j b l (Q : rmatrix -> Prop), dims2 n n m -> j < n -> length b = n -> l <= n ->
  (forall m', dims2 n n m' ->
     (forall i k, i < n -> k < n -> ent m' i k = if (Nat.eqb i j && (l <=? k))%bool then (ent m i k - nth k b 0)%Qc else ent m i k) -> Q m') ->
  wp (g7_subtractRow n m j b l) Q.
Proof.
  intros n m j b l Q HD Hj HL Hl HQ. unfold g7_subtractRow.
  apply wp_for_up with (I := fun e m' => dims2 n n m' /\ forall i k, i < n -> k < n ->
    ent m' i k = if (Nat.eqb i j && ((l <=? k) && (k <? e)))%bool then (ent m i k - nth k b 0)%Qc else ent m i k); [lia| | |].
  - split; auto. intros i k Hi Hk. replace ((l <=? k) && (k <? l))%bool with false; [rewrite andb_false_r; auto|].
    destruct (Nat.leb_spec l k), (Nat.ltb_spec k l); auto; lia.
  - intros e m1 He1 He2 (D1 & E1). apply wp_bind. apply wp_get2 with (d := 0%Qc) (n := n) (m := n); auto.
    apply wp_bind. apply wp_aget with (d := 0%Qc); [lia|].
    apply wp_set2 with (d := 0%Qc) (n := n) (m := n); auto. intros m2 D2 E2 _. split; auto.
    intros i k Hi Hk. unfold ent at 1. rewrite E2. fold (ent m1 i k) (ent m1 j e). rewrite !E1 by auto.
    rewrite Nat.ltb_irrefl, !andb_false_r. destruct (Nat.eqb_spec i j) as [->|]; cbn [andb]; auto.
    destruct (Nat.eqb_spec k e) as [->|].
    + rewrite ltb_Sk. replace (l <=? e) with true by (symmetry; apply Nat.leb_le; lia). auto.
    + rewrite ltb_S by auto. auto.
  - intros m1 (D1 & E1). apply HQ; auto. intros i k Hi Hk. rewrite E1 by auto.
    replace (k <? n) with true by (symmetry; apply Nat.ltb_lt; lia). rewrite andb_true_r. auto.
Qed.
Lemma g7_rowStep_wp : forall n m r i j k l (Q : rmatrix * rmatrix -> Prop), dims2 n n m -> dims2 n n r ->
  i < n -> j < n -> l <= n ->
  (forall m' r', dims2 n n m' -> dims2 n n r' ->
     (forall a c, a < n -> c < n -> ent m' a c = if (Nat.eqb a j && (l <=? c))%bool then (ent m a c - ent m i c * k)%Qc else ent m a c) ->
     (forall a c, a < n -> c < n -> ent r' a c = if Nat.eqb a j then (ent r a c - ent r i c * k)%Qc else ent r a c) -> Q (m', r')) ->
  wp (g7_rowStep n m r i j k l) Q.
Proof.
  intros n m r i j k l Q Dm Dr Hi Hj Hl HQ. unfold g7_rowStep.
  apply wp_bind. apply g7_extractRow_wp; auto. intros b1 L1 E1.
  apply wp_bind. apply g7_multiplyRow_wp; auto. intros b2 L2 E2.
  apply wp_bind. apply g7_subtractRow_wp; auto. intros m' Dm' Em'.
  apply wp_bind. apply g7_extractRow_wp; auto. intros b3 L3 E3.
  apply wp_bind. apply g7_multiplyRow_wp; auto. intros b4 L4 E4.
  apply wp_bind. apply g7_subtractRow_wp; auto; [lia|]. intros r' Dr' Er'. apply wp_ok. apply HQ; auto.
  - intros a c Ha Hc. rewrite Em' by auto. rewrite E2, E1 by auto. auto.
  - intros a c Ha Hc. rewrite Er' by auto. rewrite E4, E3 by auto. cbn [Nat.leb]. rewrite andb_true_r. auto.
Qed.
Lemma g7_initE_wp : forall n (Q : rmatrix -> Prop),
  (forall r, dims2 n n r -> qeq n (ent r) qid -> Q r) -> wp (g7_initE n) Q.
Proof.
  intros n Q HQ. unfold g7_initE.
  assert (D0 : dims2 n n (repeat (repeat 0%Qc n) n)).
  { split; [apply repeat_length|]. intros i Hi. rewrite (nth_indep _ [] (repeat 0%Qc n)) by (rewrite repeat_length; auto).
    rewrite nth_repeat. apply repeat_length. }
  apply wp_for_up with (I := fun i m => dims2 n n m /\ forall a c, a < i -> c < n -> ent m a c = qid a c); [lia| | |].
  - split; auto. intros; lia.
  - intros i m _ Hi (D1 & E1).
    apply wp_for_up with (I := fun j m => dims2 n n m /\ (forall a c, a < i -> c < n -> ent m a c = qid a c) /\
      forall c, c < j -> ent m i c = qid i c); [lia| | |].
    + repeat split; auto; try apply D1. intros; lia.
    + intros j m1 _ Hj (D2 & E2 & C2).
      assert (G : wp (set2 m1 i j (qid i j)) (fun m => dims2 n n m /\ (forall a c, a < i -> c < n -> ent m a c = qid a c) /\
        forall c, c < S j -> ent m i c = qid i c)).
      { apply wp_set2 with (d := 0%Qc) (n := n) (m := n); auto. intros m2 D3 E3 _. split; auto. split.
        - intros a c Ha Hc. unfold ent. rewrite E3. destruct (Nat.eqb_spec a i); [lia|]. cbn [andb]. apply E2; auto.
        - intros c Hc. unfold ent. rewrite E3, Nat.eqb_refl. cbn [andb].
          destruct (Nat.eqb_spec c j) as [->|]; auto. apply C2; lia. }
      unfold qid in G. destruct (Nat.eqb i j); exact G.
    + intros m1 (D2 & E2 & C2). split; auto. intros a c Ha Hc.
      destruct (Nat.eq_dec a i) as [->|]; [apply C2; auto|apply E2; auto; lia].
  - intros r (D1 & E1). apply HQ; auto.
Qed.

(** ** The relation between the two matrices *)
Definition rel (n : nat) (A0 : qmat) (m r : rmatrix) : Prop := qeq n (qmul n (ent r) A0) (ent m).
Lemma rel_swap : forall n A0 m r m' r' s, (forall i, i < n -> s i < n) -> rel n A0 m r ->
  (forall i k, i < n -> k < n -> ent m' i k = ent m (s i) k) ->
  (forall i k, i < n -> k < n -> ent r' i k = ent r (s i) k) -> rel n A0 m' r'.
Proof.
  intros n A0 m r m' r' s Hs H Em Er i j Hi Hj. rewrite Em, <- H by auto. unfold qmul.
  apply qsum_ext. intros k Hk. rewrite Er by auto. reflexivity.
Qed.
Lemma rel_step : forall n A0 m r m' r' i j k, i < n -> j < n -> rel n A0 m r ->
  (forall a c, a < n -> c < n -> ent m' a c = if Nat.eqb a j then (ent m a c - ent m i c * k)%Qc else ent m a c) ->
  (forall a c, a < n -> c < n -> ent r' a c = if Nat.eqb a j then (ent r a c - ent r i c * k)%Qc else ent r a c) ->
  rel n A0 m' r'.
Proof.
  intros n A0 m r m' r' i j k Hi Hj H Em Er a c Ha Hc. rewrite Em by auto. unfold qmul.
  destruct (Nat.eqb_spec a j) as [->|Hn].
  - rewrite <- (H j c), <- (H i c) by auto. unfold qmul, Qcminus. rewrite <- qsum_scale_r, <- qsum_opp, <- qsum_plus.
    apply qsum_ext. intros e He. rewrite Er, Nat.eqb_refl by auto. ring.
  - rewrite <- (H a c) by auto. apply qsum_ext. intros e He. rewrite Er by auto.
    destruct (Nat.eqb_spec a j); [lia|auto].
Qed.
(** zeros below the diagonal in the first k columns *)
Definition low0 (n k : nat) (m : qmat) : Prop := forall i c, i < n -> c < k -> c < i -> m i c = 0%Qc.

Lemma g7_passI_wpu : forall n A0 m r, dims2 n n m -> dims2 n n r -> rel n A0 m r ->
  wpu True (g7_passI n m r) (fun st => let '(m', r') := st in
    dims2 n n m' /\ dims2 n n r' /\ rel n A0 m' r' /\ low0 n n (ent m')).
Proof.
  intros n A0 m r Dm Dr HR. unfold g7_passI.
  apply wpu_for_up with (I := fun i st => let '(m', r') := st in
    dims2 n n m' /\ dims2 n n r' /\ rel n A0 m' r' /\ low0 n i (ent m')); [lia| | |].
  - repeat split; auto; try apply Dm; try apply Dr. intros i c Hi Hc; lia.
  - intros i [m1 r1] _ Hi (D1 & E1 & R1 & Z1).
    apply wpu_bind. apply g7_mainElement_wpu; auto. intros mr mc Hmr Hmc _.
    assert (HS : forall t m2 r2, i <= t < n -> dims2 n n m2 -> dims2 n n r2 -> rel n A0 m2 r2 -> low0 n i (ent m2) ->
      wpu True (if Nat.eqb t i then Ok (m2, r2) else
                m <- g7_swapRows n m2 i t ;; r <- g7_swapRows n r2 i t ;; Ok (m, r))
        (fun st => let '(m', r') := st in dims2 n n m' /\ dims2 n n r' /\ rel n A0 m' r' /\ low0 n i (ent m'))).
    { intros t m2 r2 Ht D2 E2 R2 Z2. destruct (Nat.eqb_spec t i) as [|Hti]; [cbn; auto|].
      apply wpu_wp. apply wp_bind. apply g7_swapRows_wp; auto; [lia|]. intros m3 D3 F3.
      apply wp_bind. apply g7_swapRows_wp; auto; [lia|]. intros r3 D3' F3'. apply wp_ok.
      split; auto. split; auto. split.
      - apply rel_swap with (m := m2) (r := r2) (s := fun a => if Nat.eqb a i then t else if Nat.eqb a t then i else a); auto.
        intros a Ha. eqbs; lia.
      - intros a c Ha Hc Hca. rewrite F3 by lia. apply Z2; [eqbs; lia|auto|eqbs; lia]. }
    apply wpu_bind. apply wpu_mono with (P := True) (2 := fun x => x) (1 := HS mr m1 r1 Hmr D1 E1 R1 Z1).
    intros [m2 r2] (D2 & E2 & R2 & Z2).
    apply wpu_bind. apply wpu_mono with (P := True) (2 := fun x => x) (1 := HS mc m2 r2 Hmc D2 E2 R2 Z2).
    intros [m3 r3] (D3 & E3 & R3 & Z3).
    apply wpu_for_up with (I := fun j st => let '(m', r') := st in
      dims2 n n m' /\ dims2 n n r' /\ rel n A0 m' r' /\ low0 n i (ent m') /\
      (forall a, i < a < j -> ent m' a i = 0%Qc)); [lia| | |].
    + repeat split; auto; try apply D3; try apply E3. intros; lia.
    + intros j [m4 r4] Hj1 Hj2 (D4 & E4 & R4 & Z4 & C4).
      apply wpu_bind. apply wpu_get2 with (d := 0%Qc) (n := n) (m := n); auto. fold (ent m4 j i).
      apply wpu_bind. apply wpu_get2 with (d := 0%Qc) (n := n) (m := n); auto. fold (ent m4 i i).
      apply wpu_bind. apply wpu_qdiv; auto. intros HZ. apply wpu_wp.
      apply g7_rowStep_wp; auto; [lia|]. intros m5 r5 D5 E5 F5 G5.
      assert (F5' : forall a c, a < n -> c < n -> ent m5 a c = if Nat.eqb a j then (ent m4 a c - ent m4 i c * (ent m4 j i / ent m4 i i))%Qc else ent m4 a c).
      { intros a c Ha Hc. rewrite F5 by auto. destruct (Nat.eqb_spec a j) as [->|]; cbn [andb]; auto.
        destruct (Nat.leb_spec i c); auto. rewrite (Z4 i c) by lia. ring. }
      split; auto. split; auto. split; [|split].
      * apply rel_step with (m := m4) (r := r4) (i := i) (j := j) (k := (ent m4 j i / ent m4 i i)%Qc); auto.
      * intros a c Ha Hc Hca. rewrite F5' by lia. destruct (Nat.eqb_spec a j) as [->|]; [|apply Z4; auto].
        rewrite (Z4 j c), (Z4 i c) by lia. ring.
      * intros a Ha. rewrite F5' by lia. destruct (Nat.eqb_spec a j) as [->|]; [field; auto|apply C4; lia].
    + intros [m4 r4] (D4 & E4 & R4 & Z4 & C4). repeat split; auto; try apply D4; try apply E4.
      intros a c Ha Hc Hca. destruct (Nat.eq_dec c i) as [->|]; [apply C4; lia|apply Z4; lia].
  - intros [m1 r1] H. exact H.
Qed.

Lemma rel_scale : forall n A0 m r m' r' j k, rel n A0 m r ->
  (forall a c, a < n -> c < n -> ent m' a c = if Nat.eqb a j then (ent m a c / k)%Qc else ent m a c) ->
  (forall a c, a < n -> c < n -> ent r' a c = if Nat.eqb a j then (ent r a c / k)%Qc else ent r a c) ->
  rel n A0 m' r'.
Proof.
  intros n A0 m r m' r' j k H Em Er a c Ha Hc. rewrite Em by auto. unfold qmul.
  destruct (Nat.eqb_spec a j) as [->|Hn].
  - rewrite <- (H j c) by auto. unfold qmul, Qcdiv. rewrite <- qsum_scale_r.
    apply qsum_ext. intros e He. rewrite Er, Nat.eqb_refl by auto. unfold Qcdiv. ring.
  - rewrite <- (H a c) by auto. apply qsum_ext. intros e He. rewrite Er by auto.
    destruct (Nat.eqb_spec a j); [lia|auto].
Qed.
Lemma g7_passII_wpu : forall n A0 m r, dims2 n n m -> dims2 n n r -> rel n A0 m r -> low0 n n (ent m) ->
  wpu True (g7_passII n m r) (fun st => let '(m', r') := st in
    dims2 n n m' /\ dims2 n n r' /\ rel n A0 m' r' /\ low0 n n (ent m') /\ forall i, i < n -> ent m' i i = 1%Qc).
Proof.
  intros n A0 m r Dm Dr HR HZ. unfold g7_passII.
  apply wpu_for_up with (I := fun i st => let '(m', r') := st in
    dims2 n n m' /\ dims2 n n r' /\ rel n A0 m' r' /\ low0 n n (ent m') /\ forall a, a < i -> ent m' a a = 1%Qc); [lia| | |].
  - repeat split; auto; try apply Dm; try apply Dr. intros; lia.
  - intros i [m1 r1] _ Hi (D1 & E1 & R1 & Z1 & O1).
    apply wpu_bind. apply wpu_get2 with (d := 0%Qc) (n := n) (m := n); auto. fold (ent m1 i i).
    apply wpu_for_up with (I := fun j st => let '(m', r') := st in dims2 n n m' /\ dims2 n n r' /\ (j > 0 -> ent m1 i i <> 0%Qc) /\
      (forall a c, a < n -> c < n -> ent m' a c = if (Nat.eqb a i && (c <? j))%bool then (ent m1 a c / ent m1 i i)%Qc else ent m1 a c) /\
      (forall a c, a < n -> c < n -> ent r' a c = if (Nat.eqb a i && (c <? j))%bool then (ent r1 a c / ent m1 i i)%Qc else ent r1 a c)); [lia| | |].
    + repeat split; auto; try apply D1; try apply E1; try lia; intros a c _ _; rewrite andb_false_r; auto.
    + intros j [m2 r2] _ Hj (D2 & E2 & N2 & F2 & G2).
      apply wpu_bind. apply wpu_get2 with (d := 0%Qc) (n := n) (m := n); auto. fold (ent m2 i j).
      apply wpu_bind. apply wpu_qdiv; auto. intros Hnz.
      apply wpu_bind. apply wpu_set2 with (d := 0%Qc) (n := n) (m := n); auto. intros m3 D3 F3.
      apply wpu_bind. apply wpu_get2 with (d := 0%Qc) (n := n) (m := n); auto. fold (ent r2 i j).
      apply wpu_bind. apply wpu_qdiv; auto. intros _.
      apply wpu_bind. apply wpu_set2 with (d := 0%Qc) (n := n) (m := n); auto. intros r3 E3 G3.
      cbn [wpu]. split; auto. split; auto. split; auto. split.
      * intros a c Ha Hc. unfold ent at 1. rewrite F3. fold (ent m2 a c). rewrite !F2 by auto.
        rewrite Nat.ltb_irrefl, andb_false_r. destruct (Nat.eqb_spec a i) as [->|]; cbn [andb]; auto.
        destruct (Nat.eqb_spec c j) as [->|]; [rewrite ltb_Sk|rewrite ltb_S by auto]; auto.
      * intros a c Ha Hc. unfold ent at 1. rewrite G3. fold (ent r2 a c). rewrite !G2 by auto.
        rewrite Nat.ltb_irrefl, andb_false_r. destruct (Nat.eqb_spec a i) as [->|]; cbn [andb]; auto.
        destruct (Nat.eqb_spec c j) as [->|]; [rewrite ltb_Sk|rewrite ltb_S by auto]; auto.
    + intros [m2 r2] (D2 & E2 & N2 & F2 & G2).
      assert (Hnz : ent m1 i i <> 0%Qc) by (apply N2; lia).
      assert (F2' : forall a c, a < n -> c < n -> ent m2 a c = if Nat.eqb a i then (ent m1 a c / ent m1 i i)%Qc else ent m1 a c).
      { intros a c Ha Hc. rewrite F2 by auto. replace (c <? n) with true by (symmetry; apply Nat.ltb_lt; lia).
        rewrite andb_true_r. auto. }
      split; auto. split; auto. split; [|split].
      * apply rel_scale with (m := m1) (r := r1) (j := i) (k := ent m1 i i); auto.
        intros a c Ha Hc. rewrite G2 by auto. replace (c <? n) with true by (symmetry; apply Nat.ltb_lt; lia).
        rewrite andb_true_r. auto.
      * intros a c Ha Hc Hca. rewrite F2' by lia. rewrite (Z1 a c) by lia.
        destruct (Nat.eqb_spec a i); auto. field. auto.
      * intros a Ha. rewrite F2' by lia. destruct (Nat.eqb_spec a i) as [->|]; [field; auto|apply O1; lia].
  - intros [m1 r1] H. exact H.
Qed.

Lemma g7_passIII_wp : forall n A0 m r, dims2 n n m -> dims2 n n r -> rel n A0 m r -> low0 n n (ent m) ->
  (forall i, i < n -> ent m i i = 1%Qc) ->
  wp (g7_passIII n m r) (fun st => let '(m', r') := st in
    dims2 n n m' /\ dims2 n n r' /\ rel n A0 m' r' /\ qeq n (ent m') qid).
Proof.
  intros n A0 m r Dm Dr HR HZ HO. unfold g7_passIII.
  apply wp_for_down with (I := fun i st => let '(m', r') := st in
    dims2 n n m' /\ dims2 n n r' /\ rel n A0 m' r' /\ low0 n n (ent m') /\ (forall a, a < n -> ent m' a a = 1%Qc) /\
    (forall a c, a < n -> i <= c < n -> a < c -> ent m' a c = 0%Qc)); [lia| | |].
  - repeat split; auto; try apply Dm; try apply Dr. intros; lia.
  - intros i [m1 r1] _ Hi (D1 & E1 & R1 & Z1 & O1 & U1).
    apply wp_for_down with (I := fun j st => let '(m', r') := st in
      dims2 n n m' /\ dims2 n n r' /\ rel n A0 m' r' /\ low0 n n (ent m') /\ (forall a, a < n -> ent m' a a = 1%Qc) /\
      (forall a c, a < n -> S i <= c < n -> a < c -> ent m' a c = 0%Qc) /\
      (forall a, j <= a < i -> ent m' a i = 0%Qc)); [lia| | |].
    + repeat split; auto; try apply D1; try apply E1. intros; lia.
    + intros j [m2 r2] _ Hj (D2 & E2 & R2 & Z2 & O2 & U2 & C2).
      apply wp_bind. apply wp_get2 with (d := 0%Qc) (n := n) (m := n); auto; [lia|]. fold (ent m2 j i).
      apply g7_rowStep_wp; auto; try lia. intros m3 r3 D3 E3 F3 G3.
      assert (F3' : forall a c, a < n -> c < n -> ent m3 a c = if Nat.eqb a j then (ent m2 a c - ent m2 i c * ent m2 j i)%Qc else ent m2 a c).
      { intros a c Ha Hc. rewrite F3 by auto. cbn [Nat.leb]. rewrite andb_true_r. auto. }
      split; auto. split; auto. split; [|split; [|split; [|split]]].
      * apply rel_step with (m := m2) (r := r2) (i := i) (j := j) (k := ent m2 j i); auto. lia.
      * intros a c Ha Hc Hca. rewrite F3' by lia. destruct (Nat.eqb_spec a j) as [->|]; [|apply Z2; auto].
        rewrite (Z2 j c), (Z2 i c) by lia. ring.
      * intros a Ha. rewrite F3' by lia. destruct (Nat.eqb_spec a j) as [->|]; [|apply O2; auto].
        rewrite (O2 j), (Z2 i j) by lia. ring.
      * intros a c Ha Hc Hac. rewrite F3' by lia. destruct (Nat.eqb_spec a j) as [->|]; [|apply U2; auto].
        rewrite (U2 j c), (U2 i c) by lia. ring.
      * intros a Ha. rewrite F3' by lia. destruct (Nat.eqb_spec a j) as [->|]; [rewrite O2 by auto; ring|apply C2; lia].
    + intros [m2 r2] (D2 & E2 & R2 & Z2 & O2 & U2 & C2). repeat split; auto; try apply D2; try apply E2.
      intros a c Ha Hc Hac. destruct (Nat.eq_dec c i) as [->|]; [apply C2; lia|apply U2; auto; lia].
  - intros [m1 r1] (D1 & E1 & R1 & Z1 & O1 & U1). split; auto. split; auto. split; auto.
    intros i j Hi Hj. unfold qid. destruct (Nat.eqb_spec i j) as [->|]; [apply O1; auto|].
    destruct (lt_dec i j); [apply U1; lia|apply Z1; lia].
Qed.

(** C109, first part *)
Lemma g7_correct : forall n m m' r', dims2 n n m -> g7_reverse n m = Ok (m', r') ->
  dims2 n n m' /\ dims2 n n r' /\ qeq n (ent m') qid /\ qinverse n (ent m) (ent r').
Proof.
  intros n m m' r' HD H.
  assert (W : wpu True (g7_reverse n m) (fun st => let '(m', r') := st in
     dims2 n n m' /\ dims2 n n r' /\ qeq n (ent m') qid /\ qinverse n (ent m) (ent r'))).
  { unfold g7_reverse. apply wpu_bind. apply wpu_wp. apply g7_initE_wp. intros r0 D0 I0.
    assert (R0 : rel n (ent m) m r0).
    { intros i j Hi Hj. rewrite <- (qmul_id_l n (ent m) i j Hi). apply qmul_ext; auto. intros a b _ _. reflexivity. }
    apply wpu_bind. apply wpu_mono with (1 := g7_passI_wpu n (ent m) m r0 HD D0 R0) (2 := fun x => x).
    intros [m1 r1] (D1 & E1 & R1 & Z1).
    apply wpu_bind. apply wpu_mono with (1 := g7_passII_wpu n (ent m) m1 r1 D1 E1 R1 Z1) (2 := fun x => x).
    intros [m2 r2] (D2 & E2 & R2 & Z2 & O2).
    apply wpu_wp. apply wp_mono with (1 := g7_passIII_wp n (ent m) m2 r2 D2 E2 R2 Z2 O2).
    intros [m3 r3] (D3 & E3 & R3 & I3). split; auto. split; auto. split; auto.
    apply left_inverse_sym. intros i j Hi Hj. rewrite (R3 i j Hi Hj). apply I3; auto. }
  apply (wpu_elim _ _ _ _ _ W H).
Qed.

(** ** The identity *)
Lemma qid_ent_unique : forall n a b, dims2 n n a -> dims2 n n b -> qeq n (ent a) qid -> qeq n (ent b) qid -> a = b.
Proof.
  intros n a b Da Db Ha Hb. apply (ent_ext n n); auto. intros i j Hi Hj. rewrite Ha, Hb by auto. reflexivity.
Qed.
Lemma trunc_qid : forall i j, q_trunc (qid i j) = if Nat.eqb i j then 1%Z else 0%Z.
Proof. intros i j. unfold qid. destruct (Nat.eqb i j); reflexivity. Qed.
(** steps with factor 0 change nothing *)
Lemma g7_identity : forall n m, dims2 n n m -> qeq n (ent m) qid -> g7_reverse n m = Ok (m, m).
Proof.
  intros n m HD HI.
  assert (W : wp (g7_reverse n m) (fun st => st = (m, m))).
  { assert (HSt : forall i j l, i < n -> j < n -> i <> j -> l <= n -> wp (g7_rowStep n m m i j 0%Qc l) (fun st => st = (m, m))).
    { intros i j l Hi Hj Hij Hl. apply g7_rowStep_wp; auto. intros m' r' D1 D2 E1 E2.
      assert (Em : m' = m). { apply (ent_ext n n); auto. intros a c Ha Hc. rewrite E1 by auto.
        destruct (Nat.eqb a j && (l <=? c))%bool; auto. ring. }
      assert (Er : r' = m). { apply (ent_ext n n); auto. intros a c Ha Hc. rewrite E2 by auto.
        destruct (Nat.eqb a j); auto. ring. }
      subst. reflexivity. }
    unfold g7_reverse. apply wp_bind. apply g7_initE_wp. intros r D0 I0.
    assert (r = m) by (apply (qid_ent_unique n); auto). subst r. clear D0 I0.
    apply wp_bind.
    assert (W1 : wp (g7_passI n m m) (fun st => st = (m, m))).
    { unfold g7_passI. apply wp_for_up with (I := fun _ st => st = (m, m)); [lia|auto| |auto].
      intros i st _ Hi ->. apply wp_bind. apply wpu_false. apply g7_mainElement_wpu; auto.
      - intros a b Ha Hb HB. apply HB. rewrite (HI a b) by auto. rewrite trunc_qid. destruct (Nat.eqb a b); lia.
      - intros mr mc _ _ HM. destruct HM as [-> ->].
        + intros a b Ha Hb. rewrite (HI a b), (HI i i) by auto. rewrite !trunc_qid, Nat.eqb_refl.
          destruct (Nat.eqb a b); lia.
        + rewrite Nat.eqb_refl. cbn [bind]. apply wp_for_up with (I := fun _ st => st = (m, m)); [lia|auto| |auto].
          intros j st Hj1 Hj2 ->. apply wp_bind. apply wp_get2 with (d := 0%Qc) (n := n) (m := n); auto.
          fold (ent m j i). apply wp_bind. apply wp_get2 with (d := 0%Qc) (n := n) (m := n); auto. fold (ent m i i).
          rewrite (HI j i), (HI i i) by auto. unfold qid. rewrite Nat.eqb_refl. destruct (Nat.eqb_spec j i); [lia|].
          apply wp_bind. apply wpu_false. apply wpu_qdiv; [discriminate|]. intros _.
          replace (0 / 1)%Qc with 0%Qc by (field; discriminate). apply HSt; auto; lia. }
    apply wp_mono with (1 := W1). intros st ->. apply wp_bind.
    assert (W2 : wp (g7_passII n m m) (fun st => st = (m, m))).
    { unfold g7_passII. apply wp_for_up with (I := fun _ st => st = (m, m)); [lia|auto| |auto].
      intros i st _ Hi ->. apply wp_bind. apply wp_get2 with (d := 0%Qc) (n := n) (m := n); auto. fold (ent m i i).
      rewrite (HI i i) by auto. unfold qid. rewrite Nat.eqb_refl.
      apply wp_for_up with (I := fun _ st => st = (m, m)); [lia|auto| |auto]. intros j st _ Hj ->.
      assert (HS : forall (k : rmatrix -> res (rmatrix * rmatrix)) x, x = ent m i j -> wp (k m) (fun st => st = (m, m)) ->
         wp (bind (set2 m i j x) k) (fun st => st = (m, m))).
      { intros k x Hx Hk. apply wp_bind. apply wp_set2 with (d := 0%Qc) (n := n) (m := n); auto. intros m' D' E' _.
        assert (E : m' = m); [|rewrite E; exact Hk]. apply (ent_ext n n); auto. intros a c Ha Hc. unfold ent at 1. rewrite E'.
        destruct (Nat.eqb_spec a i) as [->|]; cbn [andb]; auto. destruct (Nat.eqb_spec c j) as [->|]; auto. }
      apply wp_bind. apply wp_get2 with (d := 0%Qc) (n := n) (m := n); auto. fold (ent m i j).
      apply wp_bind. apply wpu_false. apply wpu_qdiv; [discriminate|]. intros _. apply wpu_wp.
      apply HS; [field; discriminate|].
      apply wp_bind. apply wp_get2 with (d := 0%Qc) (n := n) (m := n); auto. fold (ent m i j).
      apply wp_bind. apply wpu_false. apply wpu_qdiv; [discriminate|]. intros _. apply wpu_wp.
      apply HS; [field; discriminate|]. apply wp_ok. reflexivity. }
    apply wp_mono with (1 := W2). intros st ->.
    unfold g7_passIII. apply wp_for_down with (I := fun _ st => st = (m, m)); [lia|auto| |auto].
    intros i st _ Hi ->. apply wp_for_down with (I := fun _ st => st = (m, m)); [lia|auto| |auto].
    intros j st _ Hj ->. apply wp_bind. apply wp_get2 with (d := 0%Qc) (n := n) (m := n); auto; [lia|].
    fold (ent m j i). rewrite (HI j i) by lia. unfold qid. destruct (Nat.eqb_spec j i); [lia|].
    apply HSt; auto; lia. }
  destruct (wp_exists _ _ _ W) as (st & E & ->). exact E.
Qed.

(** C109, second part: every call after the first one inverts the identity *)
Lemma g7_repeat_identity : forall k n m m' r', dims2 n n m -> g7_repeat (S (S k)) n m = Ok (m', r') ->
  qeq n (ent r') qid.
Proof.
  intros k n m m' r' HD H. cbn [g7_repeat] in H.
  destruct (g7_reverse n m) as [[m1 r1]|] eqn:E1; [|discriminate H]. cbn [bind] in H.
  destruct (g7_correct n m m1 r1 HD E1) as (D1 & _ & I1 & _).
  assert (G : forall k, g7_repeat (S k) n m1 = Ok (m1, m1)).
  { clear H. induction k0; [apply g7_identity; auto|].
    change (g7_repeat (S (S k0)) n m1) with ('(m, _) <- g7_reverse n m1 ;; g7_repeat (S k0) n m).
    rewrite g7_identity by auto. cbn [bind]. exact IHk0. }
  change (g7_repeat (S k) n m1 = Ok (m', r')) in H. rewrite G in H.
  assert (m1 = r') by congruence. subst r'. exact I1.
Qed.
