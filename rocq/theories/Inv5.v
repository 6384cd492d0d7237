(** Proofs about github5: the generator of "invertible" matrices *)
From Coq Require Import Arith ZArith QArith Qcanon List Bool Lia.
From Verif Require Import Base ModelSM4 WBSM4 SpecQ ModelInv Lap Inv0 Inv4 Inv23 Inv6.
Import ListNotations.
Open Scope nat_scope.

Lemma wp_int32 : forall z (Q : Z -> Prop), (- 2 ^ 31 <= z < 2 ^ 31)%Z -> Q z -> wp (int32 z) Q.
Proof.
  intros z Q H HQ. unfold int32. destruct (Z.leb_spec (- 2 ^ 31) z); [|lia].
  destruct (Z.ltb_spec z (2 ^ 31)); [|lia]. exact HQ.
Qed.

(** values of rand(): not negative *)
Definition rands (s : stream) : Prop := forall x, (0 <= s x)%Z.
Lemma factor_range : forall s x, rands s -> (-10 <= g5_factor s x <= -6)%Z.
Proof.
  intros s x H. unfold g5_factor. pose proof (Z.rem_bound_pos (s x) 5 (H x) ltac:(lia)). lia.
Qed.
(** n by n, entries in range, last column that of the identity *)
Definition zent (a : zmatrix) (i j : nat) : Z := at2 0%Z a i j.
Definition good5 (n : nat) (a : zmatrix) : Prop :=
  dims2 n n a /\ (forall i j, i < n -> j < n -> (Z.abs (zent a i j) <= 65535)%Z) /\
  (forall i, i < n -> zent a i (n - 1) = if Nat.eqb i (n - 1) then 1%Z else 0%Z).
Definition written (n : nat) (t : zcells) (w : nat -> Z) : Prop :=
  length t = n /\ forall k, k < n -> nth k t None = Some (w k).
Definition full (n : nat) (t : zcells) : Prop := length t = n /\ forall k, k < n -> nth k t None <> None.
Lemma full_written : forall n t, full n t -> written n t (fun k => match nth k t None with Some v => v | None => 0%Z end).
Proof. intros n t [L H]. split; auto. intros k Hk. specialize (H k Hk). destruct (nth k t None); auto. contradiction. Qed.

Lemma g5_temp_wp : forall s n a r t x (Q : zcells * nat -> Prop), rands s -> good5 n a -> r < n - 1 -> full n t ->
  (forall t' x', length t' = n ->
     (forall k, k < n -> exists v, nth k t' None = Some v /\ (Z.abs v <= 655350)%Z) -> nth (n - 1) t' None = Some 0%Z ->
     Q (t', x')) -> wp (g5_temp s n a r t x) Q.
Proof.
  intros s n a r t x Q Hs (Da & Ba & Ca) Hr [Lt Ht] HQ. unfold g5_temp.
  apply wp_for_up with (I := fun k st => let '(t, x) := st in length t = n /\ (forall i, i < n -> nth i t None <> None) /\
    forall i, i < k -> exists v, nth i t None = Some v /\ (Z.abs v <= 655350)%Z /\ (i = n - 1 -> v = 0%Z)); [lia| | |].
  - repeat split; auto. intros; lia.
  - intros k [t1 x1] _ Hk (L1 & N1 & F1).
    apply wp_bind. apply wp_get2 with (d := 0%Z) (n := n) (m := n); auto; [lia|]. fold (zent a r k).
    pose proof (Ba r k ltac:(lia) Hk) as B.
    assert (Z0 : k = n - 1 -> zent a r k = 0%Z).
    { intros ->. rewrite Ca by lia. destruct (Nat.eqb_spec r (n - 1)); [lia|]. reflexivity. }
    assert (PB : forall y, (Z.abs (zent a r k * g5_factor s y) <= 655350)%Z).
    { intros y. pose proof (factor_range s y Hs). rewrite Z.abs_mul. nia. }
    assert (ST : forall v (x2 : nat), (Z.abs v <= 655350)%Z -> (k = n - 1 -> v = 0%Z) ->
       wp (t <- setz t1 k v ;; Ok (t, x2)) (fun st => let '(t, x) := st in length t = n /\ (forall i, i < n -> nth i t None <> None) /\
         forall i, i < S k -> exists v, nth i t None = Some v /\ (Z.abs v <= 655350)%Z /\ (i = n - 1 -> v = 0%Z))).
    { intros v x2 Hv Hv0. apply wp_bind. apply wp_setz; [lia|]. intros t2 L2 E2. apply wp_ok. split; [lia|]. split.
      - intros i Hi. rewrite E2. destruct (Nat.eqb i k); [discriminate|auto].
      - intros i Hi. rewrite E2. destruct (Nat.eqb_spec i k) as [->|]; [exists v; auto|]. apply F1. lia. }
    pose proof (PB x1). pose proof (PB (x1 + 1)). pose proof (PB (x1 + 2)).
    apply wp_bind. apply wp_int32; [lia|]. apply wp_bind. apply wp_int32; [lia|].
    destruct (_ <? 0)%Z; [apply ST; auto; lia|].
    apply wp_bind. apply wp_int32; [lia|]. apply wp_bind. apply wp_int32; [lia|].
    apply wp_bind. destruct (nth k t1 None) as [old|] eqn:EO; [|destruct (N1 k Hk EO)].
    apply wp_getz with (v := old); auto; [lia|].
    destruct (_ <? _)%Z; [apply ST; auto; lia|].
    apply wp_bind. apply wp_int32; [lia|]. apply ST; auto. intros E. rewrite (Z0 E). reflexivity.
  - intros [t1 x1] (L1 & N1 & F1). apply HQ; auto.
    + intros k Hk. destruct (F1 k Hk) as (v & E & B & _). eauto.
    + destruct (F1 (n - 1) ltac:(lia)) as (v & E & _ & Z0). rewrite E, Z0; auto.
Qed.

Lemma g5_rows_wp : forall n a r t (Q : zmatrix -> Prop), good5 n a -> r < n - 1 -> length t = n ->
  (forall k, k < n -> exists v, nth k t None = Some v /\ (Z.abs v <= 655350)%Z) -> nth (n - 1) t None = Some 0%Z ->
  (forall a', good5 n a' -> (forall j, zent a' r j = zent a r j) -> Q a') -> wp (g5_rows n a r t) Q.
Proof.
  intros n a r t Q Ga Hr Lt Ht Hz HQ. unfold g5_rows.
  apply wp_for_up with (I := fun _ a' => good5 n a' /\ forall j, zent a' r j = zent a r j); [lia|auto| |intros a' [H1 H2]; auto].
  intros j a1 _ Hj [G1 E1]. destruct (Nat.eqb_spec r j) as [|Hrj]; [apply wp_ok; auto|].
  apply wp_for_up with (I := fun _ a' => good5 n a' /\ forall j, zent a' r j = zent a r j); [lia|auto| |auto].
  intros k a2 _ Hk [(D2 & B2 & C2) E2]. apply wp_bind. apply wp_get2 with (d := 0%Z) (n := n) (m := n); auto.
  fold (zent a2 j k). pose proof (B2 j k Hj Hk) as B. apply wp_bind.
  destruct (Ht k Hk) as (w & Ew & Bw). apply wp_getz with (v := w); auto; [lia|].
  assert (ST : forall v, (Z.abs v <= 65535)%Z -> (k = n - 1 -> v = zent a2 j k) ->
    wp (set2 a2 j k v) (fun a' => good5 n a' /\ forall j, zent a' r j = zent a r j)).
  { intros v Hv Hl. apply wp_set2 with (d := 0%Z) (n := n) (m := n); auto. intros a3 D3 E3 _. split.
    - split; auto. split.
      + intros i' j' Hi' Hj'. unfold zent. rewrite E3. destruct (Nat.eqb i' j && Nat.eqb j' k)%bool; auto.
      + intros i' Hi'. unfold zent. rewrite E3. destruct (Nat.eqb_spec i' j) as [->|]; cbn [andb]; [|apply C2; auto].
        destruct (Nat.eqb_spec (n - 1) k) as [<-|]; [rewrite Hl by auto|]; apply C2; auto.
    - intros j'. unfold zent. rewrite E3. destruct (Nat.eqb_spec r j); [lia|]. cbn [andb]. apply E2. }
  assert (W0 : k = n - 1 -> w = 0%Z) by (intros ->; congruence).
  apply wp_bind. apply wp_int32; [lia|].
  destruct (Z.ltb_spec (65535 - zent a2 j k) w) as [H|H].
  { apply ST; [|intros E; rewrite (W0 E) in H; lia].
    destruct (Z_le_gt_dec 0 (zent a2 j k)).
    - pose proof (Z.quot_pos (zent a2 j k) 4). pose proof (Z.quot_le_upper_bound (zent a2 j k) 4 65535). lia.
    - rewrite <- (Z.opp_involutive (zent a2 j k)), Z.quot_opp_l by lia.
      pose proof (Z.quot_pos (- zent a2 j k) 4). pose proof (Z.quot_le_upper_bound (- zent a2 j k) 4 65535). lia. }
  apply wp_bind. apply wp_int32; [lia|].
  destruct (Z.ltb_spec w (65535 * -1 - zent a2 j k)) as [H'|H'].
  { apply ST; [|intros E; rewrite (W0 E) in H'; lia].
    destruct (Z_le_gt_dec 0 (zent a2 j k)).
    - pose proof (Z.quot_pos (zent a2 j k) 4). pose proof (Z.quot_le_upper_bound (zent a2 j k) 4 65535). lia.
    - rewrite <- (Z.opp_involutive (zent a2 j k)), Z.quot_opp_l by lia.
      pose proof (Z.quot_pos (- zent a2 j k) 4). pose proof (Z.quot_le_upper_bound (- zent a2 j k) 4 65535). lia. }
  apply wp_bind. apply wp_int32; [lia|]. apply ST; [lia|]. intros E. rewrite (W0 E). lia.
Qed.

Lemma g5_identity_ent : forall n i j, i < n -> j < n -> zent (g5_identity n) i j = if Nat.eqb i j then 1%Z else 0%Z.
Proof.
  intros n i j Hi Hj. unfold zent, at2, g5_identity.
  rewrite (nth_indep _ [] (map (fun c => if Nat.eqb 0 c then 1%Z else 0%Z) (seq 0 n))) by (rewrite map_length, seq_length; auto).
  rewrite (map_nth (fun r => map (fun c => if Nat.eqb r c then 1%Z else 0%Z) (seq 0 n))), seq_nth by auto. cbn [Nat.add].
  rewrite (nth_indep _ 0%Z (if Nat.eqb i 0 then 1%Z else 0%Z)) by (rewrite map_length, seq_length; auto).
  rewrite (map_nth (fun c => if Nat.eqb i c then 1%Z else 0%Z)), seq_nth by auto. reflexivity.
Qed.
Lemma g5_identity_dims : forall n, dims2 n n (g5_identity n).
Proof.
  intros n. unfold g5_identity. split; [rewrite map_length, seq_length; auto|]. intros i Hi.
  rewrite (nth_indep _ [] (map (fun c => if Nat.eqb 0 c then 1%Z else 0%Z) (seq 0 n))) by (rewrite map_length, seq_length; auto).
  rewrite (map_nth (fun r => map (fun c => if Nat.eqb r c then 1%Z else 0%Z) (seq 0 n))). rewrite map_length, seq_length. auto.
Qed.
Lemma g5_identity_good : forall n, good5 n (g5_identity n).
Proof.
  intros n. split; [apply g5_identity_dims|]. split.
  - intros i j Hi Hj. rewrite g5_identity_ent by auto. destruct (Nat.eqb i j); cbn; lia.
  - intros i Hi. rewrite g5_identity_ent by lia. reflexivity.
Qed.

Lemma g5_get_ok : forall s n t, rands s -> 2 <= n -> full n t ->
  exists a, g5_get s n (g5_identity n) t = Ok a /\ good5 n a /\
    (n = 2 -> forall j, j < 2 -> zent a 0 j = if Nat.eqb j 0 then 1%Z else 0%Z).
Proof.
  intros s n t Hs Hn Ht. apply wp_exists. unfold g5_get. apply wp_bind.
  apply wp_for_up with (I := fun _ st => let '(a, t, x) := st in good5 n a /\ full n t /\
    (n = 2 -> forall j, j < 2 -> zent a 0 j = if Nat.eqb j 0 then 1%Z else 0%Z)); [lia| | |].
  - split; [apply g5_identity_good|]. split; auto. intros -> j Hj. rewrite g5_identity_ent by lia.
    rewrite Nat.eqb_sym. reflexivity.
  - intros i [[a1 t1] x1] _ _ (G1 & F1 & E1). destruct (Nat.eqb_spec n 1); [lia|].
    pose proof (Z.rem_bound_pos (s x1) (Z.of_nat n - 1) (Hs x1) ltac:(lia)) as HR.
    assert (Hr : Z.to_nat (Z.rem (s x1) (Z.of_nat n - 1)) < n - 1) by lia.
    apply wp_bind. apply g5_temp_wp; auto. intros t2 x2 L2 B2 Z2.
    apply wp_bind. apply g5_rows_wp; auto. intros a3 G3 E3. apply wp_ok. split; auto. split.
    + split; auto. intros k Hk. destruct (B2 k Hk) as (v & -> & _). discriminate.
    + intros -> j Hj. rewrite <- (E1 eq_refl j Hj). assert (HZ : Z.to_nat (Z.rem (s x1) (Z.of_nat 2 - 1)) = 0) by lia.
      rewrite HZ in E3. apply E3.
  - intros [[a1 t1] x1] (G1 & F1 & E1). apply wp_ok. auto.
Qed.

(** with the memory as malloc leaves it, the first comparison has no meaning *)
Lemma g5_get_uninit : forall s n, rands s -> 2 <= n -> (Z.rem (s 0%nat) 1000 <> 0)%Z ->
  g5_get s n (g5_identity n) (repeat None n) = UB.
Proof.
  intros s n Hs Hn H0. unfold g5_get, for_up. pose proof (Z.rem_bound_pos (s 0) 1000 (Hs 0) ltac:(lia)) as HR.
  replace (Z.to_nat (Z.rem (s 0) 1000) - 0) with (S (Z.to_nat (Z.rem (s 0) 1000) - 1)) by lia. cbn [up_n].
  destruct (Nat.eqb_spec n 1); [lia|].
  pose proof (Z.rem_bound_pos (s 1) (Z.of_nat n - 1) (Hs 1) ltac:(lia)) as HR1.
  set (r := Z.to_nat (Z.rem (s 1) (Z.of_nat n - 1))). assert (Hr : r < n - 1) by lia.
  assert (E : g5_temp s n (g5_identity n) r (repeat None n) (1 + 1) = UB); [|rewrite E; reflexivity].
  unfold g5_temp, for_up. replace (n - 0) with (S (n - 1)) by lia. cbn [up_n].
  assert (G : get2 (g5_identity n) r 0 = Ok (zent (g5_identity n) r 0)).
  { destruct (wp_exists _ _ (fun v => v = zent (g5_identity n) r 0)
      (wp_get2 Z 0%Z n n (g5_identity n) r 0 _ (g5_identity_dims n) ltac:(lia) ltac:(lia) eq_refl)) as (v & -> & ->). reflexivity. }
  rewrite G. cbn [bind]. rewrite g5_identity_ent by lia.
  assert (V : (0 <= (if Nat.eqb r 0 then 1 else 0) <= 1)%Z) by (destruct (Nat.eqb r 0); lia).
  set (v := if Nat.eqb r 0 then 1%Z else 0%Z) in *.
  assert (I32 : forall z, (- 2 ^ 31 <= z < 2 ^ 31)%Z -> int32 z = Ok z).
  { intros z Hz. destruct (wp_exists _ _ (fun y => y = z) (wp_int32 z _ Hz eq_refl)) as (y & -> & ->). reflexivity. }
  pose proof (factor_range s (1 + 1) Hs) as F1. pose proof (factor_range s (1 + 1 + 1) Hs) as F2.
  rewrite !(I32 (v * g5_factor s (1 + 1))%Z) by nia. cbn [bind]. rewrite I32 by nia. cbn [bind].
  destruct (Z.ltb_spec (65535 - v * g5_factor s (1 + 1)) 0); [nia|].
  rewrite I32 by nia. cbn [bind]. rewrite I32 by nia. cbn [bind].
  destruct n as [|m]; [lia|]. reflexivity.
Qed.

Lemma g5_get_one : forall s a t, rands s -> (Z.rem (s 0%nat) 1000 <> 0)%Z -> g5_get s 1 a t = UB.
Proof.
  intros s a t Hs H0. unfold g5_get, for_up. pose proof (Z.rem_bound_pos (s 0) 1000 (Hs 0) ltac:(lia)) as HR.
  replace (Z.to_nat (Z.rem (s 0) 1000) - 0) with (S (Z.to_nat (Z.rem (s 0) 1000) - 1)) by lia. reflexivity.
Qed.

(** two by two: always invertible *)
Lemma two_invertible : forall A : zmat, A 0 0 = 1%Z -> A 0 1 = 0%Z -> A 1 1 = 1%Z -> qinvertible 2 (qz A).
Proof.
  intros A H0 H1 H2. apply qdet_invertible. rewrite qdet_2. unfold qz. rewrite H0, H1, H2.
  change (q_of_Z 1) with 1%Qc. change (q_of_Z 0) with 0%Qc.
  replace (1 * 1 - 0 * q_of_Z (A 1%nat 0%nat))%Qc with 1%Qc by ring. discriminate.
Qed.
