(** The Berlekamp-Massey algorithm of the randomness tests computes the linear complexity. *)
From Coq Require Import Arith NArith ZArith List Bool Lia.
From Verif Require Import Base Spec LinAlg ModelRank ModelBM SpecBM.
Import ListNotations.

(** ** Registers *)

Lemma lfsr_shorter : forall n n' s L f, n' <= n -> lfsr n s L f -> lfsr n' s L f.
Proof. intros n n' s L f H H1 k Hk1 Hk2. apply H1; lia. Qed.

(** Massey's lemma: a register that fails at bit n can be replaced only by one of length at least
    n + 1 - L *)
Lemma massey : forall n s L f L' f', L <= n -> lfsr n s L f -> s n <> xsum L (fun i => f i && s (n - 1 - i)) ->
  lfsr (S n) s L' f' -> n + 1 - L <= L'.
Proof.
  intros n s L f L' f' HL H Hd H'. destruct (Nat.le_gt_cases (n + 1 - L) L') as [|Hlt]; auto. exfalso. apply Hd.
  rewrite (H' n) by lia.
  rewrite (xsum_ext L' _ (fun j => xsum L (fun i => f' j && (f i && s (n - 1 - j - 1 - i))))).
  2:{ intros j Hj. rewrite xsum_andb_l. f_equal. apply H; lia. }
  rewrite xsum_swap. apply xsum_ext. intros i Hi.
  rewrite (H' (n - 1 - i)) by lia. rewrite <- xsum_andb_l. apply xsum_ext. intros j Hj.
  replace (n - 1 - j - 1 - i) with (n - 1 - i - 1 - j) by lia.
  destruct (f' j), (f i); reflexivity.
Qed.

Lemma lincomp_unique : forall n s L L', lincomp n s L -> lincomp n s L' -> L = L'.
Proof.
  intros n s L L' [(f & Hf) H] [(f' & Hf') H']. specialize (H _ _ Hf'). specialize (H' _ _ Hf). lia.
Qed.

(** ** Connection polynomials: C 0 = 1, sum over i <= L of C i s (k - i) *)

Definition disc (s C : nat -> bool) (L k : nat) : bool := xsum (S L) (fun i => C i && s (k - i)).
Lemma xsum_S_l : forall n f, xsum (S n) f = xorb (f 0) (xsum n (fun i => f (S i))).
Proof.
  induction n as [|n IH]; intros f.
  - simpl. destruct (f 0); reflexivity.
  - change (xsum (S (S n)) f) with (xorb (xsum (S n) f) (f (S n))). rewrite IH. simpl. apply xorb_assoc.
Qed.
Lemma disc_lfsr : forall s C L k, C 0 = true -> L <= k ->
  disc s C L k = xorb (s k) (xsum L (fun i => C (S i) && s (k - 1 - i))).
Proof.
  intros s C L k HC Hk. unfold disc. rewrite xsum_S_l, HC. f_equal.
  - simpl. f_equal. lia.
  - apply xsum_ext. intros i Hi. do 2 f_equal. lia.
Qed.
Lemma disc_ext_L : forall s C L L' k, L <= L' -> (forall i, L < i -> i <= L' -> C i = false) -> disc s C L' k = disc s C L k.
Proof.
  intros s C L L' k HL HC. unfold disc. induction L' as [|L' IH].
  - replace L with 0 by lia. reflexivity.
  - destruct (Nat.eq_dec L (S L')) as [->|]; [reflexivity|].
    change (xsum (S (S L')) (fun i => C i && s (k - i))) with (xorb (xsum (S L') (fun i => C i && s (k - i))) (C (S L') && s (k - S L'))).
    rewrite (HC (S L')) by lia. simpl andb. rewrite xorb_false_r. apply IH; [lia|]. intros; apply HC; lia.
Qed.
(** adding a shifted polynomial *)
Lemma xsum_shift : forall sh p g, xsum (sh + p) (fun i => if i <? sh then false else g (i - sh)) = xsum p g.
Proof.
  intros sh p g. induction p as [|p IH].
  - rewrite Nat.add_0_r. apply xsum_false. intros k Hk. apply Nat.ltb_lt in Hk. rewrite Hk. reflexivity.
  - rewrite Nat.add_succ_r. simpl. rewrite IH. f_equal.
    destruct (Nat.ltb_spec (sh + p) sh); [lia|]. f_equal. lia.
Qed.
Definition padd (C B : nat -> bool) (sh : nat) : nat -> bool :=
  fun i => xorb (C i) (if i <? sh then false else B (i - sh)).
Lemma disc_padd : forall s C B sh L LB L' k, L <= L' -> sh + LB <= L' -> L' <= k ->
  (forall i, L < i -> i <= L' -> C i = false) -> (forall i, LB < i -> i <= L' - sh -> B i = false) ->
  disc s (padd C B sh) L' k = xorb (disc s C L k) (disc s B LB (k - sh)).
Proof.
  intros s C B sh L LB L' k H1 H2 Hk HC HB. rewrite <- (disc_ext_L s C L L') by auto.
  rewrite <- (disc_ext_L s B LB (L' - sh)) by (auto; lia).
  unfold disc, padd.
  rewrite (xsum_ext _ _ (fun i => xorb (C i && s (k - i)) (if i <? sh then false else B (i - sh) && s (k - sh - (i - sh))))).
  - rewrite xsum_xorb. f_equal. replace (S L') with (sh + S (L' - sh)) by lia.
    apply (xsum_shift sh (S (L' - sh)) (fun i => B i && s (k - sh - i))).
  - intros i Hi. destruct (Nat.ltb_spec i sh).
    + rewrite !xorb_false_r. reflexivity.
    + replace (k - sh - (i - sh)) with (k - i) by lia. destruct (C i), (B (i - sh)), (s (k - i)); reflexivity.
Qed.

(** ** The invariant: before round N.  m1 = m + 1. *)

Definition inv (n : nat) (s : nat -> bool) (N : nat) (C B : nat -> bool) (L m1 : nat) : Prop :=
  C 0 = true /\ (forall i, L < i -> i < n -> C i = false) /\ L <= N /\
  (forall k, L <= k -> k < N -> disc s C L k = false) /\
  (forall L' f, lfsr N s L' f -> L <= L') /\
  m1 <= N /\ L <= m1 /\ B 0 = true /\ (forall i, m1 - L < i -> i < n -> B i = false) /\
  (m1 = 0 -> L = 0) /\
  (0 < m1 -> m1 - L <= m1 - 1 /\ (forall k, m1 - L <= k -> k < m1 - 1 -> disc s B (m1 - L) k = false) /\
     disc s B (m1 - L) (m1 - 1) = true).

Lemma disc_fail : forall n s N C L, C 0 = true -> L <= N -> N <= n ->
  (forall k, L <= k -> k < N -> disc s C L k = false) -> lfsr N s L (fun i => C (S i)).
Proof.
  intros n s N C L H0 HL HN H k H1 H2. specialize (H k H1 H2). rewrite disc_lfsr in H by auto.
  apply xorb_eq in H. exact H.
Qed.

Lemma inv_same : forall n s N C B L m1, N < n -> inv n s N C B L m1 -> disc s C L N = false -> inv n s (S N) C B L m1.
Proof.
  intros n s N C B L m1 Hn (I1 & I2 & I3 & I4 & I5 & I6 & I7 & I8 & I9 & I10 & I11) Hd.
  refine (conj I1 (conj I2 (conj _ (conj _ (conj _ (conj _ (conj I7 (conj I8 (conj I9 (conj I10 I11)))))))))); try lia.
  - intros k H1 H2. destruct (Nat.eq_dec k N) as [->|]; auto. apply I4; lia.
  - intros L' f Hf. apply (I5 L' f). apply (lfsr_shorter (S N)); auto.
Qed.

Lemma inv_lower : forall n s N C B L m1, N < n -> inv n s N C B L m1 -> disc s C L N = true ->
  forall L' f, lfsr (S N) s L' f -> L <= L' /\ N + 1 - L <= L'.
Proof.
  intros n s N C B L m1 Hn (I1 & I2 & I3 & I4 & I5 & _) Hd L' f Hf. split.
  - apply (I5 L' f). apply (lfsr_shorter (S N)); auto.
  - apply (massey N s L (fun i => C (S i)) L' f); auto.
    + apply (disc_fail n); auto; lia.
    + intros E. rewrite disc_lfsr in Hd by auto. rewrite E, xorb_nilpotent in Hd. discriminate.
Qed.

Lemma inv_upper : forall n s N C B L m1, N < n -> inv n s N C B L m1 -> disc s C L N = true ->
  let L1 := Nat.max L (N + 1 - L) in let C1 := padd C B (N + 1 - m1) in
  C1 0 = true /\ (forall i, L1 < i -> i < n -> C1 i = false) /\
  (forall k, L1 <= k -> k < S N -> disc s C1 L1 k = false).
Proof.
  intros n s N C B L m1 Hn (I1 & I2 & I3 & I4 & I5 & I6 & I7 & I8 & I9 & I10 & I11) Hd L1 C1.
  assert (Hsh : 0 < N + 1 - m1) by lia.
  refine (conj _ (conj _ _)).
  - unfold C1, padd. rewrite I1. destruct (Nat.ltb_spec 0 (N + 1 - m1)); [reflexivity|lia].
  - intros i H1 H2. unfold C1, padd. rewrite I2 by lia. destruct (Nat.ltb_spec i (N + 1 - m1)); [reflexivity|].
    rewrite I9 by lia. reflexivity.
  - intros k H1 H2. assert (Hm : 0 < m1) by (destruct m1; [specialize (I10 eq_refl); lia|lia]).
    destruct (I11 Hm) as (J1 & J2 & J3).
    unfold C1. rewrite (disc_padd s C B (N + 1 - m1) L (m1 - L)); try lia.
    + destruct (Nat.eq_dec k N) as [->|].
      * rewrite Hd. replace (N - (N + 1 - m1)) with (m1 - 1) by lia. rewrite J3. reflexivity.
      * rewrite I4 by lia. rewrite J2 by lia. reflexivity.
    + intros i Hi1 Hi2. apply I2; lia.
    + intros i Hi1 Hi2. apply I9; lia.
Qed.

Lemma inv_grow : forall n s N C B L m1, N < n -> inv n s N C B L m1 -> disc s C L N = true -> 2 * L <= N ->
  inv n s (S N) (padd C B (N + 1 - m1)) C (N + 1 - L) (S N).
Proof.
  intros n s N C B L m1 Hn HI Hd HL. assert (HI' := HI).
  destruct HI' as (I1 & I2 & I3 & I4 & I5 & I6 & I7 & I8 & I9 & I10 & I11).
  destruct (inv_upper n s N C B L m1 Hn HI Hd) as (U1 & U2 & U3).
  rewrite Nat.max_r in * by lia.
  refine (conj U1 (conj U2 (conj _ (conj U3 (conj _ (conj _ (conj _ (conj I1 (conj _ (conj _ _)))))))))); try lia.
  - intros L' f Hf. apply (inv_lower n s N C B L m1 Hn HI Hd L' f Hf).
  - intros i H1 H2. apply I2; lia.
  - intros _. replace (S N - (N + 1 - L)) with L by lia. replace (S N - 1) with N by lia.
    refine (conj _ (conj _ Hd)); [lia|exact I4].
Qed.
Lemma inv_keep : forall n s N C B L m1, N < n -> inv n s N C B L m1 -> disc s C L N = true -> N < 2 * L ->
  inv n s (S N) (padd C B (N + 1 - m1)) B L m1.
Proof.
  intros n s N C B L m1 Hn HI Hd HL. assert (HI' := HI).
  destruct HI' as (I1 & I2 & I3 & I4 & I5 & I6 & I7 & I8 & I9 & I10 & I11).
  destruct (inv_upper n s N C B L m1 Hn HI Hd) as (U1 & U2 & U3).
  rewrite Nat.max_l in * by lia.
  refine (conj U1 (conj U2 (conj _ (conj U3 (conj _ (conj _ (conj I7 (conj I8 (conj I9 (conj I10 I11)))))))))); try lia.
  intros L' f Hf. apply (inv_lower n s N C B L m1 Hn HI Hd L' f Hf).
Qed.

Lemma inv_ext : forall n s N C B L m1 C' B', 0 < n -> N <= n -> (forall i, i < n -> C i = C' i) -> (forall i, i < n -> B i = B' i) ->
  inv n s N C B L m1 -> inv n s N C' B' L m1.
Proof.
  intros n s N C B L m1 C' B' Hn HN EC EB (I1 & I2 & I3 & I4 & I5 & I6 & I7 & I8 & I9 & I10 & I11).
  refine (conj _ (conj _ (conj I3 (conj _ (conj I5 (conj I6 (conj I7 (conj _ (conj _ (conj I10 _)))))))))).
  - rewrite <- EC by auto. exact I1.
  - intros i H1 H2. rewrite <- EC by auto. auto.
  - intros k H1 H2. rewrite <- (I4 k) by auto. apply xsum_ext. intros i Hi. rewrite EC by lia. reflexivity.
  - rewrite <- EB by auto. exact I8.
  - intros i H1 H2. rewrite <- EB by auto. auto.
  - intros Hm. destruct (I11 Hm) as (J1 & J2 & J3). refine (conj J1 (conj _ _)).
    + intros k H1 H2. rewrite <- (J2 k) by auto. apply xsum_ext. intros i Hi. rewrite EB by lia. reflexivity.
    + rewrite <- J3. apply xsum_ext. intros i Hi. rewrite EB by lia. reflexivity.
Qed.

(** ** The program *)

Lemma wp_py_ix : forall A (l : list A) z (Q : nat -> Prop), (0 <= z < Z.of_nat (length l))%Z -> Q (Z.to_nat z) -> wp (py_ix l z) Q.
Proof.
  intros A l z Q Hz H. unfold py_ix.
  rewrite (proj2 (Z.leb_le 0 z)), (proj2 (Z.ltb_lt z (Z.of_nat (length l)))) by lia. exact H.
Qed.
Lemma wp_pget : forall A (l : list A) z d (Q : A -> Prop), (0 <= z < Z.of_nat (length l))%Z -> Q (nth (Z.to_nat z) l d) -> wp (pget l z) Q.
Proof.
  intros A l z d Q Hz H. unfold pget. apply wp_bind, wp_py_ix; auto. apply (wp_aget _ _ _ d); auto. lia.
Qed.
Lemma wp_pset : forall A (l : list A) z x (Q : list A -> Prop), (0 <= z < Z.of_nat (length l))%Z -> Q (upd l (Z.to_nat z) x) -> wp (pset l z x) Q.
Proof.
  intros A l z x Q Hz H. unfold pset. apply wp_bind, wp_py_ix; auto. apply wp_aset; auto. lia.
Qed.

Definition bit01 (x : N) : Prop := x = 0%N \/ x = 1%N.
Definition b01 (x : N) : bool := N.eqb x 1.
Lemma bit01_lxor : forall x y, bit01 x -> bit01 y -> bit01 (N.lxor x y) /\ b01 (N.lxor x y) = xorb (b01 x) (b01 y).
Proof. intros x y [->| ->] [->| ->]; unfold bit01; split; auto. Qed.
Lemma bit01_land : forall x y, bit01 x -> bit01 y -> bit01 (N.land x y) /\ b01 (N.land x y) = b01 x && b01 y.
Proof. intros x y [->| ->] [->| ->]; unfold bit01; split; auto. Qed.
Lemma bit01_zero : forall x, bit01 x -> N.eqb x 0 = negb (b01 x).
Proof. intros x [->| ->]; reflexivity. Qed.
Lemma nth_01 : forall l k, (forall x, In x l -> bit01 x) -> bit01 (nth k l 0%N).
Proof.
  intros l k H. destruct (Nat.lt_ge_cases k (length l)).
  - apply H, nth_In. auto.
  - rewrite nth_overflow by auto. left. reflexivity.
Qed.
Lemma upd_01 : forall l k x, (forall x, In x l -> bit01 x) -> bit01 x -> forall y, In y (upd l k x) -> bit01 y.
Proof.
  intros l k x H Hx y Hy. apply (In_nth _ _ 0%N) in Hy as (j & Hj & <-). rewrite length_upd in Hj.
  destruct (Nat.lt_ge_cases k (length l)).
  - rewrite nth_upd by auto. destruct (Nat.eqb j k); auto. apply H, nth_In; auto.
  - assert (E : upd l k x = l).
    { clear -H0. revert k H0. induction l; intros [|k] H0; simpl in *; auto; try lia. f_equal. apply IHl. lia. }
    rewrite E. apply H, nth_In; auto.
Qed.

Definition bmrel (n : nat) (s : nat -> bool) (N : nat) (st : bm) : Prop :=
  length (bm_b st) = n /\ length (bm_c st) = n /\
  (forall x, In x (bm_b st) -> bit01 x) /\ (forall x, In x (bm_c st) -> bit01 x) /\
  exists m1, bm_m st = (Z.of_nat m1 - 1)%Z /\ inv n s N (seqbits (bm_c st)) (seqbits (bm_b st)) (bm_L st) m1.

Lemma disc_up : forall s C L k, disc s C (S L) k = xorb (disc s C L k) (C (S L) && s (k - S L)).
Proof. reflexivity. Qed.

Lemma bm_step_wp : forall bits N st, (forall x, In x bits -> bit01 x) -> N < length bits ->
  bmrel (length bits) (seqbits bits) N st -> wp (bm_step bits N st) (bmrel (length bits) (seqbits bits) (S N)).
Proof.
  intros bits N st Hb HN (Lb & Lc & Zb & Zc & m1 & Em & HI). set (s := seqbits bits) in *. set (n := length bits) in *.
  assert (HI' := HI). destruct HI' as (I1 & I2 & I3 & I4 & I5 & I6 & I7 & I8 & I9 & I10 & I11).
  unfold bm_step. fold n. apply wp_bind. apply (wp_pget _ _ _ 0%N); [lia|]. rewrite Nat2Z.id.
  apply wp_bind. apply (wp_for_up _ (fun i d => bit01 d /\ b01 d = disc s (seqbits (bm_c st)) (i - 1) N)); [lia| | |].
  { split; [apply nth_01; auto|]. simpl. unfold disc. simpl. rewrite I1. simpl. rewrite Nat.sub_0_r.
    change (b01 (nth N bits 0%N)) with (s N). destruct (s N); reflexivity. }
  { intros i d Hi1 Hi2 [Hd1 Hd2]. apply wp_bind. apply (wp_pget _ _ _ 0%N); [lia|].
    apply wp_bind. apply (wp_pget _ _ _ 0%N); [lia|]. apply wp_ok.
    rewrite Nat2Z.id. replace (Z.to_nat (Z.of_nat N - Z.of_nat i)) with (N - i) by lia.
    destruct (bit01_land (nth i (bm_c st) 0%N) (nth (N - i) bits 0%N)) as [E1 E2]; try (apply nth_01; auto).
    destruct (bit01_lxor d _ Hd1 E1) as [E3 E4]. split; auto. rewrite E4, E2, Hd2.
    replace (S i - 1) with (S (i - 1)) by lia. rewrite disc_up. replace (S (i - 1)) with i by lia. reflexivity. }
  intros d [Hd1 Hd2]. replace (bm_L st + 1 - 1) with (bm_L st) in Hd2 by lia.
  rewrite bit01_zero by auto. rewrite Hd2. destruct (disc s (seqbits (bm_c st)) (bm_L st) N) eqn:Ed; simpl negb; cbv iota.
  2:{ apply wp_ok. refine (conj Lb (conj Lc (conj Zb (conj Zc _)))). exists m1. split; auto. apply inv_same; auto. }
  set (sh := N + 1 - m1).
  apply wp_bind. apply (wp_for_up _ (fun i c => length c = n /\ (forall x, In x c -> bit01 x) /\
    forall j, j < n -> seqbits c j = if j <? sh + i then padd (seqbits (bm_c st)) (seqbits (bm_b st)) sh j else seqbits (bm_c st) j)); [lia| | |].
  { refine (conj Lc (conj Zc _)). intros j Hj. destruct (Nat.ltb_spec j (sh + 0)); auto. unfold padd.
    destruct (Nat.ltb_spec j sh); [|lia]. rewrite xorb_false_r. reflexivity. }
  { intros i c _ Hi (Hl & Hz & Hc). rewrite Em in Hi |- *.
    assert (Hx : (Z.of_nat N - (Z.of_nat m1 - 1) + Z.of_nat i = Z.of_nat (sh + i))%Z) by (unfold sh; lia).
    assert (Hs : sh + i < n) by (unfold sh; lia).
    rewrite Hx. apply wp_bind. apply (wp_pget _ _ _ 0%N); [lia|]. apply wp_bind. apply (wp_pget _ _ _ 0%N); [lia|].
    apply wp_pset; [lia|]. rewrite !Nat2Z.id.
    destruct (bit01_lxor (nth (sh + i) c 0%N) (nth i (bm_b st) 0%N)) as [E1 E2]; try (apply nth_01; auto).
    refine (conj _ (conj _ _)); [rewrite length_upd; auto|apply upd_01; auto|].
    intros j Hj. unfold seqbits at 1. rewrite nth_upd by lia. destruct (Nat.eqb_spec j (sh + i)) as [->|Hne].
    - rewrite (proj2 (Nat.ltb_lt (sh + i) (sh + S i))) by lia.
      change (b01 (N.lxor (nth (sh + i) c 0%N) (nth i (bm_b st) 0%N)) = padd (seqbits (bm_c st)) (seqbits (bm_b st)) sh (sh + i)).
      rewrite E2. specialize (Hc (sh + i) Hs). rewrite Nat.ltb_irrefl in Hc. unfold padd.
      rewrite (proj2 (Nat.ltb_ge (sh + i) sh)) by lia. replace (sh + i - sh) with i by lia.
      change (b01 (nth (sh + i) c 0%N)) with (seqbits c (sh + i)). rewrite Hc. reflexivity.
    - change (seqbits c j = if j <? sh + S i then padd (seqbits (bm_c st)) (seqbits (bm_b st)) sh j else seqbits (bm_c st) j).
      rewrite Hc by auto. destruct (Nat.ltb_spec j (sh + i)), (Nat.ltb_spec j (sh + S i)); auto; lia. }
  intros c (Hl & Hz & Hc).
  assert (Hc' : forall j, j < n -> padd (seqbits (bm_c st)) (seqbits (bm_b st)) sh j = seqbits c j).
  { intros j Hj. rewrite Hc by auto. rewrite Em. destruct (Nat.ltb_spec j (sh + Z.to_nat (Z.of_nat n - Z.of_nat N + (Z.of_nat m1 - 1)))); auto.
    unfold sh in *. lia. }
  destruct (Nat.leb_spec (2 * bm_L st) N) as [H|H]; apply wp_ok; unfold bmrel; cbn [bm_b bm_c bm_L bm_m].
  - refine (conj Lc (conj Hl (conj Zc (conj Hz _)))). exists (S N). split; [lia|].
    apply (inv_ext n s (S N) (padd (seqbits (bm_c st)) (seqbits (bm_b st)) sh) (seqbits (bm_c st))); auto; try lia.
    apply inv_grow; auto.
  - refine (conj Lb (conj Hl (conj Zb (conj Hz _)))). exists m1. split; [auto|].
    apply (inv_ext n s (S N) (padd (seqbits (bm_c st)) (seqbits (bm_b st)) sh) (seqbits (bm_b st))); auto; try lia.
    apply inv_keep; auto.
Qed.

Lemma inv_0 : forall n s C, 0 < n -> C 0 = true -> (forall i, 0 < i -> i < n -> C i = false) -> inv n s 0 C C 0 0.
Proof.
  intros n s C Hn H0 H. refine (conj H0 (conj _ (conj _ (conj _ (conj _ (conj _ (conj _ (conj H0 (conj _ (conj _ _))))))))));
    try (intros; lia); try lia; try (intros; apply H; lia).
Qed.

(** the coefficients returned are those of the register found, without the last one *)
Theorem bm_wp : forall bits, bits <> [] -> (forall x, In x bits -> bit01 x) ->
  wp (berelekamp_massey bits) (fun r => lincomp (length bits) (seqbits bits) (fst r) /\
    exists f, lfsr (length bits) (seqbits bits) (fst r) f /\ length (snd r) = fst r /\
      forall i, S i < fst r -> seqbits (snd r) (S i) = f i).
Proof.
  intros bits Hne Hb. unfold berelekamp_massey.
  assert (Hn : 0 < length bits) by (destruct bits; simpl; [congruence|lia]).
  set (z := map _ bits). assert (Lz : length z = length bits) by apply map_length.
  assert (Zz : forall x, In x z -> bit01 x).
  { intros x Hx. apply in_map_iff in Hx as (y & <- & _). left; reflexivity. }
  apply wp_bind, wp_pset; [lia|]. apply wp_bind, wp_pset; [lia|]. change (Z.to_nat 0) with 0.
  apply wp_bind. apply (wp_for_up _ (bmrel (length bits) (seqbits bits))); [lia| | |].
  - unfold bmrel. cbn [bm_b bm_c bm_L bm_m]. rewrite length_upd.
    assert (Z1 : forall x, In x (upd z 0 1%N) -> bit01 x) by (apply upd_01; auto; right; reflexivity).
    refine (conj Lz (conj Lz (conj Z1 (conj Z1 _)))). exists 0. split; [reflexivity|].
    apply inv_0; auto.
    + unfold seqbits. rewrite nth_upd by lia. reflexivity.
    + intros i H1 H2. unfold seqbits. rewrite nth_upd by lia. destruct (Nat.eqb_spec i 0); [lia|].
      unfold z. rewrite (map_nth (fun _ => 0%N) bits 0%N). reflexivity.
  - intros N st _ H1 H2. apply bm_step_wp; auto.
  - intros st (Lb & Lc & Zb & Zc & m1 & Em & HI). apply wp_ok. cbn [fst snd].
    assert (HI' := HI). destruct HI' as (I1 & I2 & I3 & I4 & I5 & I6 & I7 & I8 & I9 & I10 & I11).
    assert (HF : lfsr (length bits) (seqbits bits) (bm_L st) (fun i => seqbits (bm_c st) (S i))).
    { apply (disc_fail (length bits)); auto. }
    split; [split; eauto|].
    exists (fun i => seqbits (bm_c st) (S i)). split; auto. split.
    + unfold pyslice. rewrite firstn_length, skipn_length. lia.
    + intros i Hi. unfold seqbits, pyslice. simpl skipn. rewrite Nat.sub_0_r.
      assert (X : forall l k j, j < k -> nth j (firstn k l) 0%N = nth j l 0%N).
      { clear. induction l; intros [|k] [|j] H; simpl; auto; try lia. apply IHl. lia. }
      rewrite X by auto. reflexivity.
Qed.
