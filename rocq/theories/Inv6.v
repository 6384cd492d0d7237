(** Proofs about github6: integer determinants and the adjugate in flat arrays *)
From Coq Require Import Arith ZArith QArith Qcanon List Bool Lia Factorial.
From Verif Require Import Base ModelSM4 WBSM4 SpecQ ModelInv Lap Inv0 Inv4 Inv23.
Import ListNotations.
Open Scope nat_scope.

(** ** Whole numbers as rationals *)
Lemma q_of_Z_add : forall a b, q_of_Z (a + b) = (q_of_Z a + q_of_Z b)%Qc.
Proof.
  intros a b. apply Qc_is_canon. unfold q_of_Z. cbn [this Q2Qc Qcplus]. rewrite !Qred_correct.
  unfold inject_Z, Qeq, Qplus. cbn [Qnum Qden]. lia.
Qed.
Lemma q_of_Z_mul : forall a b, q_of_Z (a * b) = (q_of_Z a * q_of_Z b)%Qc.
Proof.
  intros a b. apply Qc_is_canon. unfold q_of_Z. cbn [this Q2Qc Qcmult]. rewrite !Qred_correct.
  unfold inject_Z, Qeq, Qmult. cbn [Qnum Qden]. lia.
Qed.
Lemma q_of_Z_opp : forall a, q_of_Z (- a) = (- q_of_Z a)%Qc.
Proof.
  intros a. apply Qc_is_canon. unfold q_of_Z. cbn [this Q2Qc Qcopp]. rewrite !Qred_correct.
  unfold inject_Z, Qeq, Qopp. cbn [Qnum Qden]. lia.
Qed.
Lemma q_of_Z_inj : forall a b, q_of_Z a = q_of_Z b -> a = b.
Proof.
  intros a b H. assert (E : (this (q_of_Z a) == this (q_of_Z b))%Q) by (rewrite H; reflexivity).
  unfold q_of_Z in E. cbn [this Q2Qc] in E. rewrite !Qred_correct in E.
  unfold inject_Z, Qeq in E. cbn [Qnum Qden] in E. lia.
Qed.

Definition zmat := nat -> nat -> Z.
Definition qz (A : zmat) : qmat := fun i j => q_of_Z (A i j).
(** A in rows of n, from the start of t *)
Definition zholds (L n : nat) (t : zcells) (A : zmat) : Prop :=
  length t = L /\ n * n <= L /\ forall i j, i < n -> j < n -> nth (i * n + j) t None = Some (A i j).
Lemma zholds_len : forall L n t A, zholds L n t A -> zholds (length t) n t A.
Proof. intros L n t A (<- & H). split; auto. Qed.
Definition zminor (A : zmat) (p q : nat) : zmat := fun r c => A (skip p r) (skip q c).

Lemma wp_getz : forall t i v (Q : Z -> Prop), i < length t -> nth i t None = Some v -> Q v -> wp (getz t i) Q.
Proof.
  intros t i v Q Hi E HQ. unfold getz. apply wp_bind. apply wp_aget with (d := None); auto. rewrite E. exact HQ.
Qed.
Lemma wp_setz : forall t i v (Q : zcells -> Prop), i < length t ->
  (forall t', length t' = length t -> (forall k, nth k t' None = if Nat.eqb k i then Some v else nth k t None) -> Q t') ->
  wp (setz t i v) Q.
Proof.
  intros t i v Q Hi HQ. unfold setz. apply wp_aset; auto. apply HQ; [apply length_upd|].
  intros k. rewrite nth_upd by auto. reflexivity.
Qed.
Lemma idx_inj : forall w r c r' c', c < w -> c' < w -> r * w + c = r' * w + c' -> r = r' /\ c = c'.
Proof.
  intros w r c r' c' H H' E. assert (r = r') by nia. subst. split; auto. lia.
Qed.

Lemma g6_sub_wp : forall L n p q a A t (Q : zcells -> Prop), zholds (length a) n a A -> length t = L -> n * n <= L ->
  2 <= n -> p < n -> q < n ->
  (forall t', zholds L (n - 1) t' (zminor A p q) -> Q t') -> wp (g6_sub a t p q n) Q.
Proof.
  intros L n p q a A t Q (_ & La & Ha) HL HnL Hn Hp Hq HQ. unfold g6_sub. apply wp_bind.
  apply wp_for_up with (I := fun i st => let '(b, h, k) := st in length b = L /\ h = less p i /\ k = 0 /\
     forall r c, r < less p i -> c < n - 1 -> nth (r * (n - 1) + c) b None = Some (A (skip p r) (skip q c))); [lia| | |].
  - repeat split; auto. unfold less. cbn. intros; lia.
  - intros i [[b1 h1] k1] _ Hi2 (D1 & -> & -> & E1).
    assert (Hli : less p i <= i) by (unfold less; destruct (p <? i); lia).
    destruct (Nat.eq_dec i p) as [->|Hip].
    + apply wp_for_up with (I := fun _ st => let '(b, h, k) := st in length b = L /\ h = less p p /\ k = 0 /\
        forall r c, r < less p p -> c < n - 1 -> nth (r * (n - 1) + c) b None = Some (A (skip p r) (skip q c))); [lia|auto| |].
      * intros j [[b2 h2] k2] _ Hj (D2 & -> & -> & E2). apply wp_bind. apply wp_setz; [nia|]. intros b3 L3 F3.
        rewrite Nat.eqb_refl. cbn [negb andb]. apply wp_ok. repeat split; auto; try lia.
        intros r c Hr Hc. rewrite F3. destruct (Nat.eqb_spec (r * (n - 1) + c) (p * (n - 1) + j)); [nia|]. auto.
      * intros [[b2 h2] k2] H. rewrite less_Sp. exact H.
    + apply wp_for_up with (I := fun j st => let '(b', h, k) := st in length b' = L /\
        (h, k) = (if Nat.eqb (less q j) (n - 1) then (S (less p i), 0) else (less p i, less q j)) /\
        (forall r c, c < n - 1 -> r < less p i \/ (r = less p i /\ c < less q j) ->
           nth (r * (n - 1) + c) b' None = Some (A (skip p r) (skip q c)))); [lia| | |].
      * assert (E0 : less q 0 = 0) by (unfold less; auto).
        rewrite E0. destruct (Nat.eqb_spec 0 (n - 1)); [lia|]. split; auto. split; auto.
        intros r c Hc [H|[_ H]]; [apply E1; auto|lia].
      * intros j [[b2 h2] k2] _ Hj (D2 & HK & E2).
        assert (Hlj : less q j <= j) by (unfold less; destruct (q <? j); lia).
        apply wp_bind. apply wp_setz; [nia|]. intros b3 L3 F3.
        assert (E3 : forall r c, c < n - 1 -> r < less p i \/ (r = less p i /\ c < less q j) ->
           nth (r * (n - 1) + c) b3 None = Some (A (skip p r) (skip q c))).
        { intros r c Hc HH. rewrite F3. destruct (Nat.eqb_spec (r * (n - 1) + c) (i * (n - 1) + j)); [nia|]. auto. }
        destruct (Nat.eqb_spec i p); [lia|]. cbn [negb andb].
        destruct (Nat.eqb_spec j q) as [->|Hjq]; cbn [negb].
        -- apply wp_ok. rewrite less_Sp. repeat split; auto. lia.
        -- pose proof (less_bound q j n Hq Hj Hjq) as HB. pose proof (less_bound p i n Hp Hi2 Hip) as HBp.
           destruct (Nat.eqb_spec (less q j) (n - 1)); [lia|]. injection HK as -> ->.
           apply wp_bind. apply wp_getz with (v := A i j); auto; [nia|].
           apply wp_bind. apply wp_setz; [nia|]. intros b4 L4 F4. apply wp_ok.
           rewrite less_S by auto.
           assert (G : forall r c, c < n - 1 -> r < less p i \/ (r = less p i /\ c < S (less q j)) ->
             nth (r * (n - 1) + c) b4 None = Some (A (skip p r) (skip q c))).
           { intros r c Hc HH. rewrite F4. destruct (Nat.eqb_spec (r * (n - 1) + c) (less p i * (n - 1) + less q j)) as [E|E].
             - destruct (idx_inj (n - 1) r c (less p i) (less q j) Hc HB E) as [-> ->].
               rewrite !skip_less by auto. auto.
             - apply E3; auto. destruct HH as [HH|[-> HH]]; auto. right. split; auto.
               destruct (Nat.eq_dec c (less q j)) as [->|]; [lia|lia]. }
           destruct (Nat.ltb_spec n (S (S (S (less q j))))), (Nat.eqb_spec (S (less q j)) (n - 1)); try lia; repeat split; auto; lia.
      * intros [[b2 h2] k2] (D2 & HK & E2). rewrite (less_n q n Hq) in HK, E2. rewrite Nat.eqb_refl in HK.
        injection HK as -> ->. rewrite less_S by auto. repeat split; auto.
        intros r c Hr Hc. apply E2; auto. lia.
  - intros [[b1 h1] k1] (D1 & _ & _ & E1). rewrite (less_n p n Hp) in E1. apply wp_ok. apply HQ.
    split; auto. split; [nia|]. exact E1.
Qed.

(** ** The determinant *)
Fixpoint nfact (n : nat) : N := match n with 0 => 1%N | S m => (N.of_nat (S m) * nfact m)%N end.
(** matrices for which no int overflows *)
Definition small (n : nat) (A : zmat) : Prop := n <= 12 /\ forall i j, i < n -> j < n -> (Z.abs (A i j) <= 1)%Z.
Lemma nfact_12 : forall n, n <= 12 -> (nfact n <= 479001600)%N.
Proof.
  intros n H. do 13 (destruct n as [|n]; [vm_compute; discriminate|]). lia.
Qed.
Lemma wpu_int32 : forall (P : Prop) z (Q : Z -> Prop), (~ (- 2 ^ 31 <= z < 2 ^ 31)%Z -> P) -> Q z -> wpu P (int32 z) Q.
Proof.
  intros P z Q HP HQ. unfold int32. destruct (Z.leb_spec (- 2 ^ 31) z); cbn [andb]; [|apply HP; lia].
  destruct (Z.ltb_spec z (2 ^ 31)); [exact HQ|apply HP; lia].
Qed.
Lemma small_minor : forall n A p q, p < n -> q < n -> small n A -> small (n - 1) (zminor A p q).
Proof.
  intros n A p q Hp Hq [H1 H2]. split; [lia|]. intros i j Hi Hj. unfold zminor. apply H2.
  - pose proof (skip_lt p i (n - 1) Hi). lia.
  - pose proof (skip_lt q j (n - 1) Hj). lia.
Qed.

Lemma g6_determinant_wpu : forall n a A, 1 <= n -> zholds (length a) n a A ->
  wpu (~ small n A) (g6_determinant a n) (fun st => let '(d, l) := st in
    q_of_Z d = qdet n (qz A) /\ l = nfact n /\ (small n A -> (Z.abs d <= Z.of_N (nfact n))%Z)).
Proof.
  induction n as [|m IH]; intros a A Hn Ha; [lia|]. pose proof Ha as (_ & La & Ea).
  destruct m as [|m].
  - cbn [g6_determinant]. apply wpu_bind. apply wpu_wp.
    apply wp_getz with (v := A 0 0); [lia|apply (Ea 0 0); lia|]. cbn [wpu].
    rewrite qdet_1. split; auto. split; auto. intros [_ H]. apply H; lia.
  - set (n := S m) in *. assert (Hm : 1 <= n) by (unfold n; lia).
    change (wpu (~ small (S n) A) (' (det, _, _, leaked) <- for_up 0 (S n) (fun runloop st => let '(det, sign, minor, leaked) := st in
               minor <- g6_sub a minor 0 runloop (S n) ;;
               x <- getz a runloop ;; ' (d, l) <- g6_determinant minor n ;;
               xd <- int32 (x * d) ;; sxd <- int32 (sign * xd) ;; det <- int32 (det + sxd) ;;
               Ok (det, (-1 * sign)%Z, minor, (leaked + l)%N))
               (0%Z, 1%Z, repeat None (S n * S n), 0%N) ;;
             Ok (det, leaked)) (fun st => let '(d, l) := st in
    q_of_Z d = qdet (S n) (qz A) /\ l = nfact (S n) /\ (small (S n) A -> (Z.abs d <= Z.of_N (nfact (S n)))%Z))).
    apply wpu_bind.
    apply wpu_for_up with (I := fun i st => let '(det, sign, minor, leaked) := st in
      length minor = S n * S n /\ Z.abs sign = 1%Z /\ q_of_Z sign = sgn i /\
      q_of_Z det = qsum i (fun j => (sgn j * qz A 0%nat j * qdet n (qminor (qz A) 0 j))%Qc) /\
      leaked = (N.of_nat i * nfact n)%N /\
      (small (S n) A -> (Z.abs det <= Z.of_nat i * Z.of_N (nfact n))%Z)); [lia| | |].
    + split; [apply repeat_length|]. split; auto. split; [reflexivity|]. split; [reflexivity|].
      split; [reflexivity|]. intros _. cbn. lia.
    + intros i [[[det sign] minor] leaked] _ Hi (Lm & As & Es & Ed & -> & Bd).
      apply wpu_bind. apply wpu_wp. apply g6_sub_wp with (L := S n * S n) (A := A); auto; try lia.
      intros t Ht. replace (S n - 1) with n in Ht by lia.
      apply wpu_bind. apply wpu_wp. apply wp_getz with (v := A 0 i); [nia|apply (Ea 0 i); lia|].
      apply wpu_bind.
      assert (Ht' : zholds (length t) n t (zminor A 0 i)) by (apply zholds_len with (1 := Ht)).
      apply wpu_mono with (1 := IH t (zminor A 0 i) ltac:(lia) Ht').
      { intros HS HS'. apply HS. replace n with (S n - 1) by lia. apply small_minor; auto; lia. }
      intros [d l] (Eqd & -> & Bdd).
      assert (HB : small (S n) A -> (Z.abs (A 0%nat i) <= 1)%Z /\ (Z.abs d <= Z.of_N (nfact n))%Z /\
        (Z.of_nat (S i) * Z.of_N (nfact n) <= 479001600)%Z).
      { intros HS. split; [apply HS; lia|]. split.
        - apply Bdd. replace n with (S n - 1) by lia. apply small_minor; auto; lia.
        - pose proof (nfact_12 (S n) (proj1 HS)) as HF. cbn [nfact] in HF. nia. }
      assert (HB2 : small (S n) A -> (Z.abs (A 0%nat i * d) <= Z.of_N (nfact n))%Z).
      { intros HS. destruct (HB HS) as (B1 & B2 & _). rewrite Z.abs_mul. nia. }
      assert (HB3 : small (S n) A -> (Z.abs (sign * (A 0%nat i * d)) <= Z.of_N (nfact n))%Z).
      { intros HS. rewrite Z.abs_mul, As. pose proof (HB2 HS). lia. }
      apply wpu_bind. apply wpu_int32. { intros HO HS. pose proof (HB2 HS). destruct (HB HS) as (_ & _ & HM). nia. }
      apply wpu_bind. apply wpu_int32. { intros HO HS. pose proof (HB3 HS). destruct (HB HS) as (_ & _ & HM). nia. }
      apply wpu_bind. apply wpu_int32.
      { intros HO HS. pose proof (HB3 HS). pose proof (Bd HS). destruct (HB HS) as (_ & _ & HM). nia. }
      cbn [wpu]. split; [apply Ht|]. split; [rewrite Z.abs_mul, As; reflexivity|]. split.
      { rewrite q_of_Z_mul, Es, sgn_S. change (q_of_Z (-1)) with (- (1))%Qc. ring. }
      split.
      { cbn [qsum]. rewrite q_of_Z_add, !q_of_Z_mul, Ed, Es, Eqd.
        change (qdet n (qz (zminor A 0 i))) with (qdet n (qminor (qz A) 0 i)).
        change (q_of_Z (A 0%nat i)) with (qz A 0%nat i). ring. }
      split; [lia|]. intros HS. pose proof (HB3 HS). pose proof (Bd HS). nia.
    + intros [[[det sign] minor] leaked] (Lm & As & Es & Ed & -> & Bd). cbn [wpu]. split; [|split].
      * rewrite Ed, (qdet_row0 n (qz A)). reflexivity.
      * reflexivity.
      * intros HS. pose proof (Bd HS). cbn [nfact]. lia.
Qed.

(** ** The inverse *)
Definition fholds (n : nat) (t : list (option Qc)) (B : qmat) : Prop :=
  length t = n * n /\ forall i j, i < n -> j < n -> nth (i * n + j) t None = Some (B i j).
Lemma wp_getf : forall t i v (Q : Qc -> Prop), i < length t -> nth i t None = Some v -> Q v -> wp (getf t i) Q.
Proof.
  intros t i v Q Hi E HQ. unfold getf. apply wp_bind. apply wp_aget with (d := None); auto. rewrite E. exact HQ.
Qed.
(** two nested loops that write f row col at row*n+col *)
Lemma fill_wpu : forall (P : Prop) n t0 (f : qmat) (body : nat -> nat -> list (option Qc) -> res (list (option Qc)))
  (Q : list (option Qc) -> Prop),
  length t0 = n * n ->
  (forall i j t (K : list (option Qc) -> Prop), i < n -> j < n -> length t = n * n ->
     K (upd t (i * n + j) (Some (f i j))) -> wpu P (body i j t) K) ->
  (forall t, fholds n t f -> Q t) ->
  wpu P (for_up 0 n (fun row t => for_up 0 n (body row) t) t0) Q.
Proof.
  intros P n t0 f body Q HL Hb HQ.
  apply wpu_for_up with (I := fun i t => length t = n * n /\ forall r c, r < i -> c < n -> nth (r * n + c) t None = Some (f r c)); [lia| | |].
  - split; auto. intros; lia.
  - intros i t _ Hi (L1 & E1).
    apply wpu_for_up with (I := fun j t => length t = n * n /\ (forall r c, r < i -> c < n -> nth (r * n + c) t None = Some (f r c)) /\
      forall c, c < j -> nth (i * n + c) t None = Some (f i c)); [lia| | |].
    + repeat split; auto. intros; lia.
    + intros j t1 _ Hj (L2 & E2 & F2). apply Hb; auto.
      split; [rewrite length_upd; auto|]. split.
      * intros r c Hr Hc. rewrite nth_upd by nia. destruct (Nat.eqb_spec (r * n + c) (i * n + j)); [nia|]. auto.
      * intros c Hc. rewrite nth_upd by nia. destruct (Nat.eqb_spec (i * n + c) (i * n + j)) as [E|E].
        -- replace c with j by lia. auto.
        -- apply F2. lia.
    + intros t1 (L2 & E2 & F2). split; auto. intros r c Hr Hc. destruct (Nat.eq_dec r i) as [->|]; auto. apply E2; lia.
  - intros t (L1 & E1). apply HQ. split; auto.
Qed.

Lemma g6_transpose_wpu : forall n a A inp C, 1 <= n -> zholds (length a) n a A -> fholds n inp C ->
  wpu (~ (small n A /\ qdet n (qz A) <> 0%Qc)) (g6_transpose a inp n) (fun st => let '(t, l) := st in
    l = nfact n /\ qdet n (qz A) <> 0%Qc /\ fholds n t (fun i j => (C j i / qdet n (qz A))%Qc)).
Proof.
  intros n a A inp C Hn Ha [Li Ei]. unfold g6_transpose. apply wpu_bind.
  apply fill_wpu with (f := fun i j => C j i) (body := fun row col t =>
    x <- getf inp (col * n + row) ;; aset t (row * n + col) (Some x)); [apply repeat_length| |].
  - intros i j t K Hi Hj Lt HK. apply wpu_bind. apply wpu_wp. apply wp_getf with (v := C j i); auto; [nia|].
    apply wpu_wp. apply wp_aset; [nia|exact HK].
  - intros temp1 [L1 E1]. apply wpu_bind.
    apply wpu_mono with (1 := g6_determinant_wpu n a A Hn Ha); [intros H [H1 _]; auto|].
    intros [d l] (Ed & -> & _). apply wpu_bind.
    change (Q2Qc (inject_Z d)) with (q_of_Z d). rewrite Ed.
    destruct (Qc_eq_dec (qdet n (qz A)) 0%Qc) as [Z|Z].
    + apply wpu_mono with (P := ~ (small n A /\ qdet n (qz A) <> 0%Qc)) (Q := fun _ => False); auto; [|intros ? []].
      unfold for_up. replace (n - 0) with (S (n - 1)) by lia. cbn [up_n]. apply wpu_bind.
      unfold for_up. replace (n - 0) with (S (n - 1)) by lia. cbn [up_n]. apply wpu_bind. apply wpu_bind.
      apply wpu_wp. apply wp_getf with (v := C 0 0); [nia|apply (E1 0 0); lia|].
      cbn. apply wpu_bind. apply wpu_qdiv; [|contradiction]. intros _ [_ H]. contradiction.
    + apply fill_wpu with (f := fun i j => (C j i / qdet n (qz A))%Qc) (body := fun row col t =>
        x <- getf temp1 (row * n + col) ;; y <- qdiv x (qdet n (qz A)) ;; aset t (row * n + col) (Some y)); auto.
      * intros i j t K Hi Hj Lt HK. apply wpu_bind. apply wpu_wp. apply wp_getf with (v := C j i); [nia|auto|].
        apply wpu_bind. apply wpu_qdiv; [contradiction|]. intros _. apply wpu_wp. apply wp_aset; [nia|exact HK].
      * intros t Ht. cbn [wpu]. auto.
Qed.

Lemma g6_cofactor_wpu : forall n a A inp, 2 <= n -> zholds (length a) n a A -> length inp = n * n ->
  wpu (~ (small n A /\ qdet n (qz A) <> 0%Qc)) (g6_cofactor a n inp) (fun st => let '(t, l) := st in
    l = nfact (S n) /\ qinvertible n (qz A) /\ exists B, fholds n t B /\ qinverse n (qz A) B).
Proof.
  intros n a A inp Hn Ha Li. unfold g6_cofactor. apply wpu_bind.
  pose (C := fun h l => (sgn (h + l) * qdet (n - 1) (qminor (qz A) h l))%Qc).
  apply wpu_for_up with (I := fun i st => let '(t2, t, l) := st in length t2 = n * n /\ length t = n * n /\
    l = (N.of_nat (i * n) * nfact (n - 1))%N /\
    forall r c, r < i -> c < n -> nth (r * n + c) t None = Some (C r c)); [lia| | |].
  - repeat split; auto; [apply repeat_length|]. intros; lia.
  - intros i [[t2 t] l] _ Hi (L2 & L1 & -> & E1).
    apply wpu_for_up with (I := fun j st => let '(t2, t, l) := st in length t2 = n * n /\ length t = n * n /\
      l = (N.of_nat (i * n + j) * nfact (n - 1))%N /\
      (forall r c, r < i -> c < n -> nth (r * n + c) t None = Some (C r c)) /\
      forall c, c < j -> nth (i * n + c) t None = Some (C i c)); [lia| | |].
    + rewrite Nat.add_0_r. repeat split; auto. intros; lia.
    + intros j [[s2 s] l] _ Hj (M2 & M1 & -> & F1 & G1).
      apply wpu_bind. apply wpu_wp. apply g6_sub_wp with (L := n * n) (A := A); auto. intros u Hu.
      assert (Hu' : zholds (length u) (n - 1) u (zminor A i j)) by (apply zholds_len with (1 := Hu)).
      apply wpu_bind. apply wpu_mono with (1 := g6_determinant_wpu (n - 1) u (zminor A i j) ltac:(lia) Hu').
      { intros HS [HS' _]. apply HS. apply small_minor; auto. }
      intros [d l] (Ed & -> & Bd). apply wpu_bind.
      apply wpu_int32.
      { intros HO [HS _]. pose proof (Bd (small_minor n A i j Hi Hj HS)) as B1.
        pose proof (nfact_12 (n - 1)) as B2. destruct HS as [HS _]. specialize (B2 ltac:(lia)).
        destruct (Nat.even (i + j)); lia. }
      apply wpu_bind. apply wpu_wp. apply wp_aset; [nia|]. cbn [wpu].
      split; [apply Hu|]. split; [rewrite length_upd; auto|]. split; [lia|]. split.
      * intros r c Hr Hc. rewrite nth_upd by nia. destruct (Nat.eqb_spec (r * n + c) (i * n + j)); [nia|]. auto.
      * intros c Hc. rewrite nth_upd by nia. destruct (Nat.eqb_spec (i * n + c) (i * n + j)) as [E|E]; [|apply G1; lia].
        assert (c = j) by lia. subst c. f_equal. unfold C.
        change (Q2Qc (inject_Z (if Nat.even (i + j) then d else (- d)%Z))) with (q_of_Z (if Nat.even (i + j) then d else (- d)%Z)).
        change (qdet (n - 1) (qminor (qz A) i j)) with (qdet (n - 1) (qz (zminor A i j))). rewrite <- Ed.
        unfold sgn. destruct (Nat.even (i + j)); [|rewrite q_of_Z_opp]; ring.
    + intros [[s2 s] l] (M2 & M1 & -> & F1 & G1). split; auto. split; auto. split; [f_equal; lia|].
      intros r c Hr Hc. destruct (Nat.eq_dec r i) as [->|]; auto. apply F1; lia.
  - intros [[t2 t] l] (L2 & L1 & -> & E1). apply wpu_bind.
    apply wpu_mono with (1 := g6_transpose_wpu n a A t C ltac:(lia) Ha (conj L1 E1)) (2 := fun x => x).
    intros [t' l'] (-> & HD & Ht'). cbn [wpu]. split; [|split].
    + destruct n as [|m]; [lia|]. replace (S m - 1) with m by lia. cbn [nfact]. nia.
    + apply qdet_invertible. auto.
    + eexists. split; [exact Ht'|].
      pose proof (qdet_inverse n (qz A) HD) as [I1 I2].
      assert (E : qeq n (fun i j => (C j i / qdet n (qz A))%Qc) (fun i j => (qadj n (qz A) i j / qdet n (qz A))%Qc)).
      { intros i j Hi Hj. unfold C, qadj. rewrite (Nat.add_comm j i). reflexivity. }
      split; intros i j Hi Hj.
      * rewrite <- (I1 i j Hi Hj). apply qmul_ext; auto. intros x y _ _. reflexivity.
      * rewrite <- (I2 i j Hi Hj). apply qmul_ext; auto. intros x y _ _. reflexivity.
Qed.
