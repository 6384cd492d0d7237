(** Proofs about github4: Gauss-Jordan elimination of an augmented matrix *)
From Coq Require Import Arith ZArith QArith Qcanon List Bool Lia.
From Verif Require Import Base ModelSM4 WBSM4 SpecQ ModelInv Lap Inv0.
Import ListNotations.
Open Scope nat_scope.

Ltac eqbs := repeat match goal with |- context [Nat.eqb ?x ?y] => destruct (Nat.eqb_spec x y) end; cbn [andb].

(** a row v of the augmented matrix: its left half is its right half times A0 *)
Definition rowok (n : nat) (A0 : qmat) (v : nat -> Qc) : Prop :=
  forall j, j < n -> qsum n (fun k => (v (n + k)%nat * A0 k j)%Qc) = v j.
Definition allok (n : nat) (A0 : qmat) (a : rmatrix) : Prop :=
  forall i, i < n -> rowok n A0 (ent a i).
Lemma rowok_comb : forall n A0 u v w c, rowok n A0 u -> rowok n A0 v ->
  (forall k, k < 2 * n -> w k = (u k - c * v k)%Qc) -> rowok n A0 w.
Proof.
  intros n A0 u v w c Hu Hv Hw j Hj. rewrite (Hw j), <- (Hu j), <- (Hv j) by lia.
  unfold Qcminus. rewrite <- qsum_scale, <- qsum_opp, <- qsum_plus. apply qsum_ext. intros k Hk.
  rewrite Hw by lia. ring.
Qed.
Lemma rowok_scale : forall n A0 u w c, rowok n A0 u ->
  (forall k, k < 2 * n -> w k = (u k * c)%Qc) -> rowok n A0 w.
Proof.
  intros n A0 u w c Hu Hw j Hj. rewrite (Hw j), <- (Hu j) by lia.
  rewrite <- qsum_scale_r. apply qsum_ext. intros k Hk. rewrite Hw by lia. ring.
Qed.
Lemma rowok_ext : forall n A0 u w, rowok n A0 u -> (forall k, k < 2 * n -> w k = u k) -> rowok n A0 w.
Proof.
  intros n A0 u w Hu Hw. apply rowok_scale with (u := u) (c := 1%Qc); auto. intros k Hk. rewrite Hw by auto. ring.
Qed.

(** augmentingmatrix *)
Lemma g4_augment_wp : forall n a (Q : rmatrix -> Prop), dims2 n (2 * n) a ->
  (forall a', dims2 n (2 * n) a' ->
     (forall i j, i < n -> j < n -> ent a' i j = ent a i j) ->
     (forall i j, i < n -> j < n -> ent a' i (n + j) = qid i j) -> Q a') ->
  wp (g4_augment n a) Q.
Proof.
  intros n a Q HD HQ. unfold g4_augment.
  apply wp_for_up with (I := fun i a' => dims2 n (2 * n) a' /\
     (forall r c, c < n -> ent a' r c = ent a r c) /\
     (forall r c, r < i -> c < n -> ent a' r (n + c) = qid r c)); [lia| | |].
  - repeat split; auto; try apply HD. intros; lia.
  - intros i a1 _ Hi (D1 & L1 & R1).
    apply wp_for_up with (I := fun j a' => dims2 n (2 * n) a' /\
     (forall r c, c < n -> ent a' r c = ent a r c) /\
     (forall r c, r < i -> c < n -> ent a' r (n + c) = qid r c) /\
     (forall c, n + c < j -> ent a' i (n + c) = qid i c)); [lia| | |].
    + repeat split; auto; try apply D1. intros; lia.
    + intros j a2 Hj1 Hj2 (D2 & L2 & R2 & C2).
      assert (Hm : j mod n = j - n).
      { replace j with ((j - n) + 1 * n) at 1 by lia. rewrite Nat.mod_add by lia. apply Nat.mod_small. lia. }
      rewrite Hm.
      assert (G : wp (set2 a2 i j (qid i (j - n))) (fun a' => dims2 n (2 * n) a' /\
        (forall r c, c < n -> ent a' r c = ent a r c) /\
        (forall r c, r < i -> c < n -> ent a' r (n + c) = qid r c) /\
        (forall c, n + c < S j -> ent a' i (n + c) = qid i c))).
      { apply wp_set2 with (d := 0%Qc) (n := n) (m := 2 * n); auto.
        intros a3 D3 E3 _. unfold ent in *. split; auto. split; [|split].
        - intros r c Hc. rewrite E3, <- (L2 r c) by auto. eqbs; auto; lia.
        - intros r c Hr Hc. rewrite E3, <- (R2 r c) by auto. eqbs; auto; lia.
        - intros c Hc. rewrite E3. destruct (Nat.eqb_spec i i); [|lia]. cbn [andb].
          destruct (Nat.eqb_spec (n + c) j) as [<-|]; [f_equal; lia|]. apply C2. lia. }
      unfold qid in G. destruct (Nat.eqb i (j - n)); exact G.
    + intros a2 (D2 & L2 & R2 & C2). split; auto. split; auto. intros r c Hr Hc.
      destruct (Nat.eq_dec r i) as [->|]; [apply C2; lia|apply R2; lia].
  - intros a1 (D1 & L1 & R1). apply HQ; auto.
Qed.

Lemma g4_findPivo_wp : forall n a j (Q : nat -> Prop), dims2 n (2 * n) a -> j < n ->
  (forall t, j <= t < n -> (forall i, j <= i < n -> (ent a i j <= ent a t j)%Qc) ->
     ((forall i, j < i < n -> (ent a i j <= ent a j j)%Qc) -> t = j) -> Q t) ->
  wp (g4_findPivo n a j) Q.
Proof.
  intros n a j Q HD Hj HQ. unfold g4_findPivo.
  apply wp_for_up with (I := fun i t => j <= t < n /\ (forall r, j <= r < i -> (ent a r j <= ent a t j)%Qc) /\
     ((forall i, j < i < n -> (ent a i j <= ent a j j)%Qc) -> t = j)); [lia| | |].
  - split; [lia|]. split; auto. intros r Hr. replace r with j by lia. apply Qcle_refl.
  - intros i t Hi1 Hi2 (T & M & F).
    apply wp_bind. apply wp_get2 with (d := 0%Qc) (n := n) (m := 2 * n); auto; try lia.
    apply wp_bind. apply wp_get2 with (d := 0%Qc) (n := n) (m := 2 * n); auto; try lia.
    apply wp_ok. destruct (Qclt_le_dec (at2 0%Qc a t j) (at2 0%Qc a i j)) as [L|L].
    + split; [lia|]. split.
      * intros r Hr. destruct (Nat.eq_dec r i) as [->|]; [apply Qcle_refl|].
        apply Qcle_trans with (ent a t j); [apply M; lia|apply Qclt_le_weak; exact L].
      * intros HA. exfalso. pose proof (F HA) as ->. apply (Qclt_not_le _ _ L). apply HA. lia.
    + split; [lia|]. split; auto. intros r Hr. destruct (Nat.eq_dec r i) as [->|]; [exact L|apply M; lia].
  - intros t (T & M & F). apply HQ; auto.
Qed.

Lemma g4_swapLine_wp : forall n a j t (Q : rmatrix -> Prop), dims2 n (2 * n) a -> j < n -> t < n ->
  (forall a', dims2 n (2 * n) a' ->
     (forall i k, i < n -> k < 2 * n -> ent a' i k = ent a (if Nat.eqb i j then t else if Nat.eqb i t then j else i) k) -> Q a') ->
  wp (g4_swapLine n a j t) Q.
Proof.
  intros n a j t Q HD Hj Ht HQ. unfold g4_swapLine. destruct (Nat.eqb_spec t j) as [->|Htj].
  - apply wp_ok. apply HQ; auto. intros i k Hi Hk. destruct (Nat.eqb_spec i j) as [->|]; auto.
  - apply wp_for_up with (I := fun k a' => dims2 n (2 * n) a' /\
      forall i c, ent a' i c = if c <? k then ent a (if Nat.eqb i j then t else if Nat.eqb i t then j else i) c else ent a i c); [lia| | |].
    + split; auto.
    + intros k a1 _ Hk (D1 & E1).
      apply wp_bind. apply wp_get2 with (d := 0%Qc) (n := n) (m := 2 * n); auto.
      apply wp_bind. apply wp_get2 with (d := 0%Qc) (n := n) (m := 2 * n); auto.
      apply wp_bind. apply wp_set2 with (d := 0%Qc) (n := n) (m := 2 * n); auto. intros a2 D2 E2 _.
      apply wp_set2 with (d := 0%Qc) (n := n) (m := 2 * n); auto. intros a3 D3 E3 _. split; auto.
      intros i c. unfold ent in *. rewrite E3, E2, !E1. replace (k <? k) with false by (symmetry; apply Nat.ltb_irrefl).
      destruct (Nat.eqb_spec c k) as [->|Hc].
      * replace (k <? S k) with true by (symmetry; apply Nat.ltb_lt; lia).
        replace (k <? k) with false by (symmetry; apply Nat.ltb_irrefl).
        destruct (Nat.eqb_spec i t) as [->|]; cbn [andb].
        { destruct (Nat.eqb_spec t j); [lia|]. auto. }
        destruct (Nat.eqb_spec i j) as [->|]; auto.
      * rewrite !andb_false_r. replace (c <? S k) with (c <? k); auto.
        destruct (Nat.ltb_spec c k), (Nat.ltb_spec c (S k)); auto; lia.
    + intros a1 (D1 & E1). apply HQ; auto. intros i k Hi Hk. rewrite E1.
      replace (k <? 2 * n) with true by (symmetry; apply Nat.ltb_lt; lia). auto.
Qed.

(** calcInverse: row j is divided by the pivot, and a multiple of it taken from the others *)
Lemma g4_calcInverse_wpu : forall (P : Prop) n a j (Q : rmatrix -> Prop), dims2 n (2 * n) a -> j < n ->
  (ent a j j = 0%Qc -> P) ->
  (forall a', dims2 n (2 * n) a' -> ent a j j <> 0%Qc ->
     (forall i k, i < n -> k < 2 * n -> ent a' i k =
        if Nat.eqb i j then (ent a j k / ent a j j)%Qc else (ent a i k - ent a j k / ent a j j * ent a i j)%Qc) -> Q a') ->
  wpu P (g4_calcInverse n a j) Q.
Proof.
  intros P n a j Q HD Hj HP HQ. unfold g4_calcInverse.
  pose (new := fun i k => if Nat.eqb i j then (ent a j k / ent a j j)%Qc else (ent a i k - ent a j k / ent a j j * ent a i j)%Qc).
  apply wpu_for_up with (I := fun i a' => dims2 n (2 * n) a' /\ (i > 0 -> ent a j j <> 0%Qc) /\
    forall r k, r < n -> k < 2 * n -> ent a' r k = if r <? i then new r k else ent a r k); [lia| | |].
  - split; auto. split; [lia|]. auto.
  - intros i a1 _ Hi (D1 & Z1 & E1).
    apply wpu_bind. apply wpu_get2 with (d := 0%Qc) (n := n) (m := 2 * n); auto; try lia.
    fold (ent a1 i j). rewrite (E1 i j) by lia. rewrite Nat.ltb_irrefl.
    apply wpu_for_up with (I := fun k a' => dims2 n (2 * n) a' /\ (k > 0 -> ent a j j <> 0%Qc) /\
       forall r c, r < n -> c < 2 * n -> ent a' r c = if (Nat.eqb r i && (c <? k))%bool then new i c else ent a1 r c); [lia| | |].
    + split; auto. split; [lia|]. intros r c Hr Hc. rewrite andb_false_r. auto.
    + intros k a2 _ Hk (D2 & Z2 & E2).
      assert (Hfin : forall a3, dims2 n (2 * n) a3 -> ent a j j <> 0%Qc ->
         (forall r c, r < n -> c < 2 * n -> ent a3 r c = if (Nat.eqb r i && Nat.eqb c k)%bool then new i k else ent a2 r c) ->
         dims2 n (2 * n) a3 /\ (S k > 0 -> ent a j j <> 0%Qc) /\
         forall r c, r < n -> c < 2 * n -> ent a3 r c = if (Nat.eqb r i && (c <? S k))%bool then new i c else ent a1 r c).
      { intros a3 D3 Z3 E3. split; auto. split; auto. intros r c Hr Hc. rewrite E3, E2 by auto.
        destruct (Nat.eqb_spec r i) as [->|]; cbn [andb]; auto.
        destruct (Nat.eqb_spec c k) as [->|].
        - replace (k <? S k) with true by (symmetry; apply Nat.ltb_lt; lia). auto.
        - replace (c <? S k) with (c <? k); auto.
          destruct (Nat.ltb_spec c k), (Nat.ltb_spec c (S k)); auto; lia. }
      destruct (Nat.eqb_spec i j) as [->|Hij].
      * apply wpu_bind. apply wpu_get2 with (d := 0%Qc) (n := n) (m := 2 * n); auto. fold (ent a2 j k).
        rewrite E2, E1 by auto. rewrite !Nat.ltb_irrefl, andb_false_r.
        apply wpu_bind. apply wpu_qdiv; auto. intros HZ.
        apply wpu_set2 with (d := 0%Qc) (n := n) (m := 2 * n); auto. intros a3 D3 E3.
        apply Hfin; auto. intros r c Hr Hc. unfold ent at 1. rewrite E3. unfold new. rewrite Nat.eqb_refl. auto.
      * apply wpu_bind. apply wpu_get2 with (d := 0%Qc) (n := n) (m := 2 * n); auto. fold (ent a2 i k).
        apply wpu_bind. apply wpu_get2 with (d := 0%Qc) (n := n) (m := 2 * n); auto. fold (ent a2 j k).
        apply wpu_bind. apply wpu_get2 with (d := 0%Qc) (n := n) (m := 2 * n); auto; try lia. fold (ent a2 j j).
        rewrite !E2 by lia. rewrite (E1 i k) by auto. rewrite !Nat.ltb_irrefl, andb_false_r.
        destruct (Nat.eqb_spec j i); [lia|]. cbn [andb]. rewrite !E1 by lia.
        assert (HK : forall (Z : ent a j j <> 0%Qc), (
           (if j <? i then new j k else ent a j k) / (if j <? i then new j j else ent a j j))%Qc = (ent a j k / ent a j j)%Qc).
        { intros Z. destruct (j <? i); auto. unfold new. rewrite Nat.eqb_refl.
          replace (ent a j j / ent a j j)%Qc with 1%Qc by (field; auto). unfold Qcdiv. replace (/ 1)%Qc with 1%Qc by (field; discriminate). ring. }
        apply wpu_bind. apply wpu_qdiv.
        { destruct (Nat.ltb_spec j i); [|exact HP]. intros F. exfalso.
          assert (Z : ent a j j <> 0%Qc) by (apply Z1; lia).
          unfold new in F. rewrite Nat.eqb_refl in F.
          replace (ent a j j / ent a j j)%Qc with 1%Qc in F by (field; auto). discriminate F. }
        intros HZ0.
        assert (HZ : ent a j j <> 0%Qc).
        { destruct (Nat.ltb_spec j i); [apply Z1; lia|exact HZ0]. }
        rewrite HK by auto.
        apply wpu_set2 with (d := 0%Qc) (n := n) (m := 2 * n); auto. intros a3 D3 E3.
        apply Hfin; auto. intros r c Hr Hc. unfold ent at 1. rewrite E3. unfold new.
        destruct (Nat.eqb_spec i j); [lia|]. rewrite andb_false_r. reflexivity.
    + intros a2 (D2 & Z2 & E2). split; auto. split; [intros _; apply Z2; lia|].
      intros r k Hr Hk. rewrite E2 by auto. replace (k <? 2 * n) with true by (symmetry; apply Nat.ltb_lt; lia).
      rewrite andb_true_r. destruct (Nat.eqb_spec r i) as [->|].
      * replace (i <? S i) with true by (symmetry; apply Nat.ltb_lt; lia). auto.
      * rewrite E1 by auto. replace (r <? S i) with (r <? i); auto.
        destruct (Nat.ltb_spec r i), (Nat.ltb_spec r (S i)); auto; lia.
  - intros a1 (D1 & Z1 & E1). apply HQ; auto; [apply Z1; lia|]. intros i k Hi Hk. rewrite E1 by auto.
    replace (i <? n) with true by (symmetry; apply Nat.ltb_lt; lia). reflexivity.
Qed.

(** the elimination keeps the rows right and ends with the identity on the left *)
Lemma g4_run_wpu : forall n a A0, dims2 n (2 * n) a -> allok n A0 a ->
  wpu True (g4_run n a) (fun a' => dims2 n (2 * n) a' /\ allok n A0 a' /\ qeq n (ent a') qid).
Proof.
  intros n a A0 HD HA. unfold g4_run.
  apply wpu_for_up with (I := fun j a' => dims2 n (2 * n) a' /\ allok n A0 a' /\ idcols n j (ent a')); [lia| | |].
  - split; auto. split; auto. intros i j Hi Hj; lia.
  - intros j a1 _ Hj (D1 & A1 & I1).
    apply wpu_bind. apply wpu_wp. apply g4_findPivo_wp; auto. intros t Ht _ _.
    apply wpu_bind. apply wpu_wp. apply g4_swapLine_wp; auto; [lia|]. intros a2 D2 E2.
    assert (A2 : allok n A0 a2).
    { intros i Hi. apply rowok_ext with (u := ent a1 (if Nat.eqb i j then t else if Nat.eqb i t then j else i)).
      - apply A1. eqbs; lia.
      - intros k Hk. apply E2; auto. }
    assert (I2 : idcols n j (ent a2)).
    { intros i c Hi Hc. rewrite E2 by lia. rewrite I1; [|eqbs; lia|auto].
      unfold qid. destruct (Nat.eqb_spec i j) as [->|]; [|destruct (Nat.eqb_spec i t) as [->|]]; auto;
        eqbs; auto; lia. }
    apply g4_calcInverse_wpu; auto. intros a3 D3 HZ E3. split; auto. split.
    + intros i Hi. destruct (Nat.eq_dec i j) as [->|Hij].
      * apply rowok_scale with (u := ent a2 j) (c := (/ ent a2 j j)%Qc); [apply A2; auto|].
        intros k Hk. rewrite E3 by auto. rewrite Nat.eqb_refl. reflexivity.
      * apply rowok_comb with (u := ent a2 i) (v := ent a2 j) (c := (ent a2 i j / ent a2 j j)%Qc); try (apply A2; auto).
        intros k Hk. rewrite E3 by auto. destruct (Nat.eqb_spec i j); [lia|]. field. auto.
    + intros i c Hi Hc. rewrite E3 by lia. destruct (Nat.eq_dec c j) as [->|Hcj].
      * unfold qid. destruct (Nat.eqb_spec i j) as [->|]; [field|field]; auto.
      * rewrite (I2 j c) by lia. unfold qid at 1. destruct (Nat.eqb_spec j c); [lia|].
        destruct (Nat.eqb_spec i j) as [->|].
        -- unfold qid. destruct (Nat.eqb_spec j c); [lia|]. field. auto.
        -- unfold qid at 1. destruct (Nat.eqb_spec j c); [lia|]. rewrite (I2 i c) by lia. field. auto.
  - intros a1 (D1 & A1 & I1). split; auto.
Qed.

(** C108, first part *)
Lemma g4_correct : forall n a a1 a2, dims2 n (2 * n) a ->
  g4_augment n a = Ok a1 -> g4_run n a1 = Ok a2 ->
  dims2 n (2 * n) a2 /\ qeq n (ent a2) qid /\ qinverse n (ent a) (fun i j => ent a2 i (n + j)).
Proof.
  intros n a a1 a2 HD H1 H2.
  assert (G : dims2 n (2 * n) a1 /\ allok n (ent a) a1).
  { apply (wp_inv _ (g4_augment n a) (fun a1 => dims2 n (2 * n) a1 /\ allok n (ent a) a1)); auto.
    apply g4_augment_wp; auto. intros a' D' L R. split; auto. intros i Hi j Hj.
    rewrite (qsum_single n i); auto.
    - rewrite R, L by auto. unfold qid. rewrite Nat.eqb_refl. ring.
    - intros k Hk Hki. rewrite R by auto. unfold qid. destruct (Nat.eqb_spec i k); [lia|]. ring. }
  destruct G as [D1 A1]. pose proof (g4_run_wpu n a1 (ent a) D1 A1) as W.
  apply (wpu_elim _ _ _ _ a2 W) in H2. destruct H2 as (D2 & A2 & I2). split; auto. split; auto.
  apply left_inverse_sym. intros i j Hi Hj. rewrite <- (I2 i j Hi Hj). apply (A2 i Hi j Hj).
Qed.
Lemma g4_augment_total : forall n a, dims2 n (2 * n) a -> exists a1, g4_augment n a = Ok a1.
Proof.
  intros n a HD. assert (W : wp (g4_augment n a) (fun _ => True)) by (apply g4_augment_wp; auto).
  destruct (wp_exists _ _ _ W) as (a1 & E & _). exists a1. exact E.
Qed.

(** a second run on the result changes nothing *)
Lemma g4_again : forall n a, dims2 n (2 * n) a -> qeq n (ent a) qid -> g4_run n a = Ok a.
Proof.
  intros n a HD HI.
  assert (W : wp (g4_run n a) (fun a' => a' = a)).
  { unfold g4_run. apply wp_for_up with (I := fun _ a' => a' = a); [lia|auto| |auto].
    intros j a1 _ Hj ->. apply wp_bind. apply g4_findPivo_wp; auto. intros t Ht _ HF.
    assert (E : t = j).
    { apply HF. intros i Hi. rewrite (HI i j), (HI j j) by lia. unfold qid. rewrite Nat.eqb_refl.
      destruct (Nat.eqb_spec i j); [lia|]. discriminate. }
    subst t. unfold g4_swapLine. rewrite Nat.eqb_refl. apply wp_bind. apply wp_ok.
    apply wpu_false. apply g4_calcInverse_wpu; auto.
    - rewrite (HI j j) by lia. unfold qid. rewrite Nat.eqb_refl. discriminate.
    - intros a2 D2 _ E2. apply (ent_ext n (2 * n)); auto. intros i k Hi Hk. rewrite E2 by auto.
      rewrite (HI j j), (HI i j) by lia. unfold qid. rewrite Nat.eqb_refl.
      destruct (Nat.eqb_spec i j) as [->|]; [field; discriminate|field; discriminate]. }
  destruct (wp_exists _ _ _ W) as (a1 & E & ->). exact E.
Qed.
