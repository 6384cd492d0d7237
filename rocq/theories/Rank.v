(** Proofs about test/randomness/gf2matrix.py. *)
From Coq Require Import Arith NArith ZArith List Bool Lia Setoid Morphisms.
From Verif Require Import Base Model ModelSM4 ModelRank Spec SpecRank LinAlg Elim Gauss.
Import ListNotations.

(** ** Dimension: more than r combinations of r vectors are dependent *)

Lemma many_combinations : forall s r (C : fmat), r < s ->
  exists x : fvec, (exists k, k < s /\ x k = true) /\
    forall l, l < r -> xsum s (fun k => x k && C k l) = false.
Proof.
  intros s r C Hrs.
  destruct (invertible_or_null s (fun l k => (l <? r) && C k l)) as [[B [HB _]]|(x & Hx & H0)].
  - exfalso. specialize (HB r r Hrs Hrs). unfold fmul, fid in HB. rewrite Nat.eqb_refl in HB.
    rewrite xsum_false in HB; [discriminate|]. intros k Hk.
    rewrite (proj2 (Nat.ltb_ge r r)); auto.
  - exists x. split; auto. intros l Hl. specialize (H0 l ltac:(lia)). unfold fapp in H0.
    rewrite <- H0. apply xsum_ext. intros k Hk.
    rewrite (proj2 (Nat.ltb_lt l r) Hl). apply andb_comm.
Qed.

(** sums over a list of rows *)
Lemma xsum_list : forall R (I : list nat) (x : nat -> bool) (f : nat -> bool),
  rows_of R I ->
  xsum R (fun i => existsb (fun k => Nat.eqb (nth k I 0) i && x k) (seq 0 (length I)) && f i) =
  xsum (length I) (fun k => x k && f (nth k I 0)).
Proof.
  intros R I x f [HN HI].
  transitivity (xsum R (fun i => xsum (length I) (fun k => fid i (nth k I 0) && (x k && f i)))).
  - apply xsum_ext. intros i Hi.
    destruct (in_dec Nat.eq_dec i I) as [Hin|Hin].
    + apply (In_nth _ _ 0) in Hin as (k & Hk & E).
      rewrite (xsum_single _ k _).
      * unfold fid. rewrite E, Nat.eqb_refl, andb_true_l. f_equal.
        destruct (x k) eqn:Ex.
        -- apply existsb_exists. exists k. rewrite in_seq, E, Nat.eqb_refl, Ex. split; auto; lia.
        -- apply not_true_iff_false. intros H. apply existsb_exists in H as (k' & H1 & H2).
           apply andb_true_iff in H2 as [H2 H3]. apply in_seq in H1. apply Nat.eqb_eq in H2.
           assert (k' = k) by (apply (proj1 (NoDup_nth I 0) HN); lia). congruence.
      * exact Hk.
      * intros k' Hk' Hne. unfold fid. destruct (Nat.eqb_spec i (nth k' I 0)) as [E2|]; auto.
        exfalso. apply Hne. apply (proj1 (NoDup_nth I 0) HN); lia.
    + rewrite xsum_false.
      * replace (existsb _ _) with false; auto. symmetry. apply not_true_iff_false. intros H.
        apply existsb_exists in H as (k' & H1 & H2). apply andb_true_iff in H2 as [H2 _].
        apply in_seq in H1. apply Nat.eqb_eq in H2. apply Hin. rewrite <- H2. apply nth_In. lia.
      * intros k Hk. unfold fid. destruct (Nat.eqb_spec i (nth k I 0)) as [->|]; auto.
        exfalso. apply Hin. apply nth_In. lia.
  - rewrite xsum_swap. apply xsum_ext. intros k Hk.
    rewrite (xsum_single R (nth k I 0)).
    + unfold fid. rewrite Nat.eqb_refl. reflexivity.
    + apply HI. apply nth_In. exact Hk.
    + intros i Hi Hne. unfold fid. destruct (Nat.eqb_spec i (nth k I 0)); [contradiction|reflexivity].
Qed.

(** independent rows which are combinations of r vectors are at most r *)
Lemma indep_bound : forall R C A I r (B D : fmat), rows_of R I -> indep R C A I ->
  (forall i j, In i I -> j < C -> A i j = xsum r (fun l => D i l && B l j)) ->
  length I <= r.
Proof.
  intros R C A I r B D HI Hind HD. destruct (Nat.le_gt_cases (length I) r) as [|Hgt]; auto.
  exfalso. destruct (many_combinations (length I) r (fun k l => D (nth k I 0) l) Hgt)
    as (x & (k & Hk & Hxk) & H0).
  set (c := fun i => existsb (fun k => Nat.eqb (nth k I 0) i && x k) (seq 0 (length I))).
  assert (Hc : c (nth k I 0) = false).
  { apply Hind.
    - intros i Hi. unfold c in Hi. apply existsb_exists in Hi as (k' & H1 & H2).
      apply andb_true_iff in H2 as [H2 _]. apply Nat.eqb_eq in H2. apply in_seq in H1.
      rewrite <- H2. apply nth_In. lia.
    - intros j Hj. unfold c. rewrite (xsum_list R I x (fun i => A i j) HI).
      rewrite (xsum_ext _ _ (fun k => xsum r (fun l => x k && (D (nth k I 0) l && B l j)))).
      + rewrite xsum_swap. apply xsum_false. intros l Hl.
        rewrite (xsum_ext _ _ (fun k => (x k && D (nth k I 0) l) && B l j))
          by (intros; apply andb_assoc).
        rewrite xsum_andb_r, H0; auto.
      + intros k' Hk'. rewrite HD; auto; [|apply nth_In; auto].
        rewrite xsum_andb_l. reflexivity. }
  unfold c in Hc. apply not_true_iff_false in Hc. apply Hc. apply existsb_exists.
  exists k. rewrite in_seq, Nat.eqb_refl, Hxk. split; auto; lia.
Qed.

(** every matrix has a set of independent rows which span all rows *)
Lemma row_basis : forall R C A n, n <= R ->
  exists I, rows_of n I /\ indep R C A I /\
    forall i, i < n -> exists d : fvec, (forall k, d k = true -> In k I) /\
      forall j, j < C -> A i j = xsum R (fun k => d k && A k j).
Proof.
  intros R C A. induction n as [|n IH]; intros Hn.
  - exists []. split; [split; [constructor|intros i []]|]. split; [|intros; lia].
    intros c Hc _ i. destruct (c i) eqn:E; auto. destruct (Hc _ E).
  - destruct IH as (I & [HN HI] & Hind & Hsp); [lia|].
    assert (HnI : ~ In n I) by (intros H; apply HI in H; lia).
    (* is row n a combination of the rows in I? decided by searching *)
    assert (Hdec : (exists d : fvec, (forall k, d k = true -> In k I) /\
                      forall j, j < C -> A n j = xsum R (fun k => d k && A k j)) \/
                   indep R C A (n :: I)).
    { assert (HF : forall L : list nat, (forall k, In k L -> In k I) -> forall b : fvec, (forall k, b k = true -> In k I) ->
        (exists d : fvec, (forall k, d k = true -> In k I) /\ (forall k, ~ In k L -> d k = b k) /\
           forall j, j < C -> A n j = xsum R (fun k => d k && A k j)) \/
        ~ (exists d : fvec, (forall k, d k = true -> In k I) /\ (forall k, ~ In k L -> d k = b k) /\
           forall j, j < C -> A n j = xsum R (fun k => d k && A k j))).
      { induction L as [|a L IHL]; intros HL b Hb.
        - destruct (find_row (fun j => xorb (A n j) (xsum R (fun k => b k && A k j))) 0 C)
            as [(j & _ & Hj & H)|H].
          + right. intros (d & _ & Hd & Hs). specialize (Hs j Hj).
            rewrite (xsum_ext R _ (fun k => b k && A k j)) in Hs.
            * rewrite Hs, xorb_nilpotent in H. discriminate.
            * intros k _. rewrite Hd; auto.
          + left. exists b. repeat split; auto. intros j Hj.
            specialize (H j ltac:(lia) Hj). apply xorb_eq in H. exact H.
        - destruct (IHL ltac:(intros; apply HL; simpl; auto)
                      (fun k => if Nat.eqb k a then false else b k)) as [(d & H1 & H2 & H3)|H0].
          { intros k. destruct (Nat.eqb_spec k a); [discriminate|auto]. }
          { left. exists d. repeat split; auto. intros k Hk. rewrite H2; [|simpl in Hk; tauto].
            destruct (Nat.eqb_spec k a); [|auto]. subst; exfalso; apply Hk; simpl; auto. }
          destruct (IHL ltac:(intros; apply HL; simpl; auto)
                      (fun k => if Nat.eqb k a then true else b k)) as [(d & H1 & H2 & H3)|H1].
          { intros k. destruct (Nat.eqb_spec k a); [intros _; subst; apply HL; simpl; auto|auto]. }
          { left. exists d. repeat split; auto. intros k Hk. rewrite H2; [|simpl in Hk; tauto].
            destruct (Nat.eqb_spec k a); [|auto]. subst; exfalso; apply Hk; simpl; auto. }
          right. intros (d & Hd1 & Hd2 & Hd3). destruct (in_dec Nat.eq_dec a L) as [Ha|Ha].
          { apply H0. exists d. repeat split; auto. intros k Hk.
            destruct (Nat.eqb_spec k a); [subst; contradiction|]. apply Hd2. simpl. intuition. }
          destruct (d a) eqn:Eda; [apply H1|apply H0]; exists d; repeat split; auto; intros k Hk;
            (destruct (Nat.eqb_spec k a); [subst; auto|]); apply Hd2; simpl; intuition. }
      destruct (HF I ltac:(auto) (fun _ => false) ltac:(discriminate)) as [(d & H1 & _ & H3)|H].
      - left. exists d. auto.
      - right. intros c Hc H0. destruct (c n) eqn:Ecn.
        + exfalso. apply H. exists (fun k => if Nat.eqb k n then false else c k). repeat split.
          * intros k. destruct (Nat.eqb_spec k n); [discriminate|]. intros Hk.
            destruct (Hc k Hk); [congruence|auto].
          * intros k Hk. destruct (Nat.eqb_spec k n); auto. destruct (c k) eqn:E; auto.
            destruct (Hc k E); [congruence|contradiction].
          * intros j Hj. specialize (H0 j Hj).
            rewrite (xsum_ext R _ (fun k => xorb (fid n k && A k j)
                       ((if Nat.eqb k n then false else c k) && A k j))) in H0.
            -- rewrite xsum_xorb, xsum_fid_l in H0 by lia. apply xorb_eq in H0. exact H0.
            -- intros k Hk. unfold fid. destruct (Nat.eqb_spec k n).
               ++ subst. rewrite Nat.eqb_refl, Ecn. simpl. destruct (A n j); reflexivity.
               ++ destruct (Nat.eqb_spec n k); [congruence|]. simpl. destruct (c k && A k j); reflexivity.
        + apply Hind; auto. intros k Hk. destruct (Hc k Hk); [congruence|auto]. }
    destruct Hdec as [(d & H1 & H2)|Hi].
    + exists I. split; [split; auto; intros i Hi; apply HI in Hi; lia|]. split; auto.
      intros i Hi. destruct (Nat.eq_dec i n) as [->|]; [exists d; auto|apply Hsp; lia].
    + exists (n :: I). split.
      { split; [constructor; auto|]. intros i [<-|Hi']; [lia|apply HI in Hi'; lia]. }
      split; auto. intros i Hi'. destruct (Nat.eq_dec i n) as [->|].
      * exists (fid n). split.
        -- intros k Hk. unfold fid in Hk. apply Nat.eqb_eq in Hk. simpl; auto.
        -- intros j Hj. rewrite xsum_fid_l; auto; lia.
      * destruct (Hsp i ltac:(lia)) as (d & H1 & H2). exists d. split; auto.
        intros k Hk. simpl; auto.
Qed.

Lemma rank_is_unique : forall R C A r r', rank_is R C A r -> rank_is R C A r' -> r = r'.
Proof.
  intros R C A r r' [(I & HI & HL & Hi) Hm] [(I' & HI' & HL' & Hi') Hm'].
  specialize (Hm I' HI' Hi'). specialize (Hm' I HI Hi). lia.
Qed.

Lemma rank_is_ext : forall n A B r, feq n A B -> rank_is n n A r -> rank_is n n B r.
Proof.
  intros n A B r E [(I & HI & HL & Hi) Hm].
  assert (X : forall A B, feq n A B -> forall I, indep n n A I -> indep n n B I).
  { clear. intros A B E I Hi c Hc H0. apply Hi; auto. intros j Hj. rewrite <- (H0 j Hj).
    apply xsum_ext. intros k Hk. rewrite (E k j Hk Hj). reflexivity. }
  split.
  - exists I. repeat split; try apply HI; auto. apply (X A); auto.
  - intros I' HI' Hi'. apply Hm; auto. apply (X B); auto. symmetry. exact E.
Qed.

(** B in echelon form, from A by row operations: the rank of A is the number of pivots *)
Lemma echelon_rank : forall n A V B p (q : nat -> nat), p <= n -> rowtr n A V B ->
  (forall i, i < p -> q i < n /\ B i (q i) = true /\ forall k, i < k -> k < n -> B k (q i) = false) ->
  (forall i j, p <= i -> i < n -> j < n -> B i j = false) ->
  rank_is n n A p.
Proof.
  intros n A V B p q Hp [[W [HVW HWV]] HB] Hq Hz.
  assert (HA : feq n A (fmul n W B)).
  { rewrite HB, <- fmul_assoc, HWV, fmul_id_l. reflexivity. }
  assert (Hup : forall I, rows_of n I -> indep n n A I -> length I <= p).
  { intros I HI Hi. apply (indep_bound n n A I p B W HI Hi).
    intros i j Hin Hj. assert (Hi' := proj2 HI i Hin). rewrite (HA i j Hi' Hj). unfold fmul.
    replace n with (p + (n - p)) by lia. rewrite xsum_add, (xsum_false (n - p)), xorb_false_r; auto.
    intros k Hk. rewrite Hz by lia. apply andb_false_r. }
  destruct (row_basis n n A n (le_n n)) as (I & HI & Hind & Hsp).
  assert (HpI : p <= length I).
  { assert (HP : rows_of n (seq 0 p)).
    { split; [apply seq_NoDup|]. intros i Hi. apply in_seq in Hi. lia. }
    replace p with (length (seq 0 p)) at 1 by apply seq_length.
    assert (HX : forall m, m <= n -> exists D : fmat, forall i, i < m ->
              (forall k, D i k = true -> In k I) /\
              forall j, j < n -> A i j = xsum n (fun k => D i k && A k j)).
    { induction m as [|m IHm]; intros Hm.
      - exists (fun _ _ => false). intros; lia.
      - destruct IHm as (D & HD); [lia|]. destruct (Hsp m ltac:(lia)) as (d & Hd).
        exists (fun i => if Nat.eqb i m then d else D i). intros i Hi.
        destruct (Nat.eqb_spec i m); [subst; exact Hd|apply HD; lia]. }
    destruct (HX n (le_n n)) as (D & HD).
    set (E := fun i l => xsum n (fun k => V i k && D k (nth l I 0))).
    apply (indep_bound n n B (seq 0 p) (length I) (fun l j => A (nth l I 0) j) E HP).
    - intros c Hc H0.
      assert (HC : forall m i, i < m -> c i = false).
      { induction m as [|m IHm]; intros i Hi; [lia|].
        destruct (Nat.eq_dec i m) as [->|]; [|apply IHm; lia].
        destruct (c m) eqn:Ec; auto. exfalso.
        assert (Hm := Hc m Ec). apply in_seq in Hm. destruct (Hq m ltac:(lia)) as (Q1 & Q2 & Q3).
        specialize (H0 (q m) Q1). rewrite (xsum_single n m) in H0; [|lia|].
        - rewrite Ec, Q2 in H0. discriminate.
        - intros k Hk Hne. destruct (Nat.lt_ge_cases k m); [rewrite IHm; auto|].
          rewrite Q3 by lia. apply andb_false_r. }
      intros i. apply (HC (S i)). lia.
    - intros i j Hi Hj. apply in_seq in Hi. rewrite (HB i j ltac:(lia) Hj). unfold fmul, E.
      rewrite (xsum_ext n _ (fun k => xsum (length I) (fun l => V i k && (D k (nth l I 0) && A (nth l I 0) j)))).
      + rewrite xsum_swap. apply xsum_ext. intros l Hl.
        rewrite (xsum_ext n _ (fun k => (V i k && D k (nth l I 0)) && A (nth l I 0) j))
          by (intros; apply andb_assoc).
        apply xsum_andb_r.
      + intros k Hk. destruct (HD k Hk) as (D1 & D2). rewrite xsum_andb_l. f_equal.
        rewrite (D2 j Hj).
        rewrite <- (xsum_list n I (fun l => D k (nth l I 0)) (fun i => A i j) HI).
        apply xsum_ext. intros i' Hi'. f_equal.
        destruct (D k i') eqn:Ed.
        * symmetry. apply existsb_exists. assert (Hin := D1 _ Ed).
          apply (In_nth _ _ 0) in Hin as (l & Hl & El). exists l.
          rewrite in_seq, El, Nat.eqb_refl, Ed. split; auto; lia.
        * symmetry. apply not_true_iff_false. intros H. apply existsb_exists in H as (l & H1 & H2).
          apply andb_true_iff in H2 as [H2 H3]. apply Nat.eqb_eq in H2. rewrite H2 in H3. congruence. }
  split; auto. exists I. split; auto. split; auto. specialize (Hup I HI Hind). lia.
Qed.

(** ** The program *)

Lemma bitmat_row : forall R C m i, bitmat R C m -> i < R ->
  length (nth i m []) = C /\ forall x, In x (nth i m []) -> x = 0%N \/ x = 1%N.
Proof. intros R C m i [HL H] Hi. apply H. apply nth_In. lia. Qed.
Lemma bitmat_upd : forall R C m i row, bitmat R C m -> i < R ->
  length row = C -> (forall x, In x row -> x = 0%N \/ x = 1%N) -> bitmat R C (upd m i row).
Proof.
  intros R C m i row [HL H] Hi H1 H2. split; [rewrite length_upd; auto|].
  intros r Hr. apply (In_nth _ _ []) in Hr as (k & Hk & E). rewrite length_upd in Hk.
  rewrite nth_upd in E by lia. destruct (Nat.eqb k i); subst; auto. apply H. apply nth_In. exact Hk.
Qed.
Lemma wp_is_one : forall R C m i j (Q : bool -> Prop), bitmat R C m -> i < R -> j < C ->
  Q (pbits m i j) -> wp (is_one m i j) Q.
Proof.
  intros R C m i j Q Hm Hi Hj HQ. unfold is_one, get2.
  destruct (bitmat_row R C m i Hm Hi) as [HL _].
  apply wp_bind. apply wp_bind. apply (wp_aget _ _ _ []); [destruct Hm; lia|].
  apply (wp_aget _ _ _ 0%N); [lia|]. exact HQ.
Qed.
Lemma zip_xor_len : forall a b, length a = length b -> length (zip_xor a b) = length a.
Proof. induction a; intros [|y b]; simpl; intros; try lia. rewrite IHa; lia. Qed.
Lemma zip_xor_nth : forall a b j, length a = length b -> nth j (zip_xor a b) 0%N = N.lxor (nth j a 0%N) (nth j b 0%N).
Proof.
  induction a as [|x a IH]; intros [|y b] [|j] H; simpl in *; try lia; auto.
Qed.
Lemma zip_xor_bits : forall a b, (forall x, In x a -> x = 0%N \/ x = 1%N) ->
  (forall x, In x b -> x = 0%N \/ x = 1%N) -> forall x, In x (zip_xor a b) -> x = 0%N \/ x = 1%N.
Proof.
  induction a as [|u a IH]; intros [|y b] Ha Hb x Hx; simpl in *; try tauto.
  destruct Hx as [<-|Hx]; [|apply (IH b); auto].
  destruct (Ha u) as [->| ->], (Hb y) as [->| ->]; auto.
Qed.
Lemma lxor_one : forall x y, (x = 0 \/ x = 1 -> y = 0 \/ y = 1 ->
  N.eqb (N.lxor x y) 1 = xorb (N.eqb y 1) (N.eqb x 1))%N.
Proof. intros x y [->| ->] [->| ->]; reflexivity. Qed.
Lemma nth_bits : forall R C m i j, bitmat R C m -> i < R -> j < C ->
  nth j (nth i m []) 0%N = 0%N \/ nth j (nth i m []) 0%N = 1%N.
Proof.
  intros R C m i j Hm Hi Hj. destruct (bitmat_row R C m i Hm Hi) as [HL H]. apply H. apply nth_In. lia.
Qed.

Lemma wp_py_swap : forall R C m a b (Q : mat -> Prop), bitmat R C m -> a < R -> b < R ->
  (forall m', bitmat R C m' -> (forall i j, pbits m' i j = rswap b a (pbits m) i j) -> Q m') ->
  wp (py_swap m a b) Q.
Proof.
  intros R C m a b Q Hm Ha Hb HQ. unfold py_swap. assert (HL := proj1 Hm).
  apply wp_bind, (wp_aget _ _ _ []); [lia|]. apply wp_bind, (wp_aget _ _ _ []); [lia|].
  apply wp_bind, wp_aset; [lia|]. apply wp_aset; [rewrite length_upd; lia|].
  destruct (bitmat_row R C m a Hm Ha) as [L1 B1]. destruct (bitmat_row R C m b Hm Hb) as [L2 B2].
  apply HQ.
  - apply bitmat_upd; auto. apply bitmat_upd; auto.
  - intros i j. unfold pbits, rswap. rewrite !nth_upd by (rewrite ?length_upd; lia).
    destruct (Nat.eqb_spec i b); auto. destruct (Nat.eqb_spec i a); auto.
Qed.

Definition ech (n : nat) (A : fmat) (t : nat) (st : mat * nat * nat) : Prop :=
  let '(lm, r, c) := st in
  bitmat n n lm /\ c = t /\ r <= t /\ (exists V, rowtr n A V (pbits lm)) /\
  (exists q, forall i, i < r -> q i < t /\ pbits lm i (q i) = true /\
     forall k, i < k -> k < n -> pbits lm k (q i) = false) /\
  (forall i j, r <= i -> i < n -> j < t -> pbits lm i j = false).

Lemma ech_step : forall n A t st, t < n -> ech n A t st -> wp (echelon_step n st) (ech n A (S t)).
Proof.
  intros n A t [[lm r] c] Ht (Hm & -> & Hr & (V & HV) & (q & Hq) & Hz). unfold echelon_step.
  apply wp_bind. apply (wp_find_up (fun k => pbits lm k t)); [lia| | |].
  - intros i H1 H2. apply (wp_is_one n n); auto.
  - intros p Hp1 Hp2 Hp3 _.
    (* after the exchange *)
    apply wp_bind. apply wp_mono with (P := fun lm1 => bitmat n n lm1 /\ (exists V, rowtr n A V (pbits lm1)) /\
      (forall i, i < r -> q i < t /\ pbits lm1 i (q i) = true /\
         forall k, i < k -> k < n -> pbits lm1 k (q i) = false) /\
      (forall i j, r <= i -> i < n -> j < t -> pbits lm1 i j = false) /\ pbits lm1 r t = true).
    { destruct (Nat.eqb_spec p r) as [->|Hne].
      - apply wp_ok. refine (conj Hm (conj _ (conj Hq (conj Hz Hp3)))). exists V. exact HV.
      - apply (wp_py_swap n n); [exact Hm|lia|lia|]. intros m' Hm' Hb.
        refine (conj Hm' (conj _ (conj _ (conj _ _)))).
        + exists (rswap r p V). eapply rowtr_ext; [reflexivity| |apply rowtr_rswap; [| |exact HV]; lia].
          intros i j Hi Hj. symmetry. apply Hb.
        + intros i Hi. destruct (Hq i Hi) as (Q1 & Q2 & Q3). split; auto. split.
          * rewrite Hb. unfold rswap. destruct (Nat.eqb_spec i r); [lia|].
            destruct (Nat.eqb_spec i p); [lia|exact Q2].
          * intros k Hk1 Hk2. rewrite Hb. unfold rswap. destruct (Nat.eqb_spec k r); [apply Q3; lia|].
            destruct (Nat.eqb_spec k p); apply Q3; lia.
        + intros i j H1 H2 H3. rewrite Hb. unfold rswap. destruct (Nat.eqb_spec i r); [apply Hz; lia|].
          destruct (Nat.eqb_spec i p); apply Hz; lia.
        + rewrite Hb. unfold rswap. rewrite Nat.eqb_refl. exact Hp3. }
    intros lm1 (Hm1 & HV1 & Hq1 & Hz1 & Hp). apply wp_bind.
    apply (wp_for_up _ (fun j lm2 => bitmat n n lm2 /\ (exists V, rowtr n A V (pbits lm2)) /\
      (forall i, i < r -> q i < t /\ pbits lm2 i (q i) = true /\
         forall k, i < k -> k < n -> pbits lm2 k (q i) = false) /\
      (forall i j, r <= i -> i < n -> j < t -> pbits lm2 i j = false) /\ pbits lm2 r t = true /\
      (forall i, r < i -> i < j -> pbits lm2 i t = false))); [lia| | |].
    { refine (conj Hm1 (conj HV1 (conj Hq1 (conj Hz1 (conj Hp _))))). intros; lia. }
    { intros j lm2 Hj1 Hj2 (Hm2 & (V2 & HV2) & Hq2 & Hz2 & Hp' & Hc).
      apply wp_bind. apply (wp_is_one n n); auto. destruct (pbits lm2 j t) eqn:Ej.
      - assert (HL := proj1 Hm2).
        apply wp_bind, (wp_aget _ _ _ []); [lia|]. apply wp_bind, (wp_aget _ _ _ []); [lia|].
        apply wp_aset; [lia|].
        destruct (bitmat_row n n lm2 r Hm2 ltac:(lia)) as [L1 B1].
        destruct (bitmat_row n n lm2 j Hm2 ltac:(lia)) as [L2 B2].
        assert (Hb : forall i c, i < n -> c < n ->
          pbits (upd lm2 j (zip_xor (nth r lm2 []) (nth j lm2 []))) i c = radd j r (pbits lm2) i c).
        { intros i c Hi Hc'. unfold pbits, radd. rewrite nth_upd by lia. destruct (Nat.eqb_spec i j); auto.
          rewrite zip_xor_nth by lia. apply lxor_one; apply (nth_bits n n); auto; lia. }
        refine (conj _ (conj _ (conj _ (conj _ (conj _ _))))).
        + apply bitmat_upd; auto; [rewrite zip_xor_len; lia|]. apply zip_xor_bits; auto.
        + exists (radd j r V2). eapply rowtr_ext; [reflexivity| |apply rowtr_radd; [| | |exact HV2]; lia].
          intros i c Hi Hc'. symmetry. apply Hb; auto.
        + intros i Hi. destruct (Hq2 i Hi) as (Q1 & Q2 & Q3). split; auto. split.
          * rewrite Hb by lia. unfold radd. destruct (Nat.eqb_spec i j); [lia|exact Q2].
          * intros k Hk1 Hk2. rewrite Hb by lia. unfold radd. destruct (Nat.eqb_spec k j); [|apply Q3; lia].
            rewrite !Q3 by lia. reflexivity.
        + intros i c H1 H2 H3. rewrite Hb by lia. unfold radd. destruct (Nat.eqb_spec i j); [|apply Hz2; lia].
          rewrite !Hz2 by lia. reflexivity.
        + rewrite Hb by lia. unfold radd. destruct (Nat.eqb_spec r j); [lia|exact Hp'].
        + intros i Hi1 Hi2. rewrite Hb by lia. unfold radd. destruct (Nat.eqb_spec i j).
          * rewrite Ej, Hp'. reflexivity.
          * apply Hc; lia.
      - apply wp_ok. refine (conj Hm2 (conj _ (conj Hq2 (conj Hz2 (conj Hp' _))))); [exists V2; exact HV2|].
        intros i Hi1 Hi2. destruct (Nat.eq_dec i j) as [->|]; auto. apply Hc; lia. }
    intros lm2 (Hm2 & HV2 & Hq2 & Hz2 & Hp' & Hc). apply wp_ok. unfold ech.
    refine (conj Hm2 (conj _ (conj _ (conj HV2 (conj _ _))))); try lia.
    + exists (fun i => if Nat.eqb i r then t else q i). intros i Hi.
      destruct (Nat.eqb_spec i r) as [->|].
      * split; [lia|]. split; [exact Hp'|]. intros k H1 H2. apply Hc; auto.
      * destruct (Hq2 i ltac:(lia)) as (Q1 & Q2 & Q3). split; [lia|]. split; auto.
    + intros i j H1 H2 H3. destruct (Nat.eq_dec j t) as [->|]; [apply Hc; lia|apply Hz2; lia].
  - intros Hnone. apply wp_ok. unfold ech.
    refine (conj Hm (conj _ (conj _ (conj _ (conj _ _))))); try lia.
    + exists V; exact HV.
    + exists q. intros i Hi. destruct (Hq i Hi) as (Q1 & Q2 & Q3). split; [lia|]. split; auto.
    + intros i j H1 H2 H3. destruct (Nat.eq_dec j t) as [->|]; [apply Hnone; lia|apply Hz; lia].
Qed.

Lemma existsb_row : forall R C m i, bitmat R C m -> i < R ->
  existsb (fun bit => N.eqb bit 1) (nth i m []) = true <-> exists j, j < C /\ pbits m i j = true.
Proof.
  intros R C m i Hm Hi. destruct (bitmat_row R C m i Hm Hi) as [HL _]. rewrite existsb_exists. split.
  - intros (x & Hx & E). apply (In_nth _ _ 0%N) in Hx as (j & Hj & Ej). exists j.
    split; [lia|]. unfold pbits. rewrite Ej. exact E.
  - intros (j & Hj & E). exists (nth j (nth i m []) 0%N). split; [apply nth_In; lia|exact E].
Qed.

Theorem rank_ok : forall M n m, bitmat n n m ->
  exists r, rank M n m = Ok r /\ rank_is n n (pbits m) r.
Proof.
  intros M n m Hm. apply wp_exists. unfold rank, row_echelon. apply wp_bind. apply wp_bind.
  apply (wp_for_up _ (ech n (pbits m))); [lia| | |].
  - unfold ech. refine (conj Hm (conj eq_refl (conj (le_n 0) (conj _ (conj _ _))))).
    + exists fid. apply rowtr_id.
    + exists (fun _ => 0). intros; lia.
    + intros; lia.
  - intros t st _ Ht H. apply ech_step; auto.
  - intros [[lm r] c] (Hm' & -> & Hr & (V & HV) & (q & Hq) & Hz). apply wp_ok.
    apply (wp_for_up _ (fun i k => k = Nat.min i r)); [lia|reflexivity| |].
    + intros i k _ Hi ->. apply wp_bind, (wp_aget _ _ _ []); [destruct Hm'; lia|]. apply wp_ok.
      destruct (Nat.lt_ge_cases i r) as [H|H].
      * rewrite (proj2 (existsb_row n n lm i Hm' Hi)); [lia|].
        destruct (Hq i H) as (Q1 & Q2 & _). exists (q i). auto.
      * destruct (existsb _ _) eqn:E; [|lia].
        apply (existsb_row n n lm i Hm' Hi) in E as (j & Hj & Ej). rewrite Hz in Ej; auto. discriminate.
    + intros k ->. rewrite Nat.min_r by lia. apply (echelon_rank n (pbits m) V (pbits lm) r q); auto.
Qed.

(** full rank and invertibility *)
Lemma full_rank : forall n A, rank_is n n A n <-> invertible n A.
Proof.
  intros n A. split.
  - intros [(I & [HN HI] & HL & Hi) _].
    destruct (invertible_or_null n (ftr A)) as [H|(x & (k & Hk & Hx) & H0)].
    + apply invertible_ftr. exact H.
    + exfalso. assert (Hall : forall i, i < n -> In i I).
      { intros i H. assert (Hs : incl (seq 0 n) I).
        { apply NoDup_length_incl; auto.
          - rewrite seq_length. lia.
          - intros j Hj. apply in_seq. apply HI in Hj. lia. }
        apply Hs, in_seq. lia. }
      assert (E : (fun i => (i <? n) && x i) k = false).
      { refine (Hi (fun i => (i <? n) && x i) _ _ k).
        - intros i H. apply andb_true_iff in H as [H _]. apply Nat.ltb_lt in H. auto.
        - intros j Hj. specialize (H0 j Hj). unfold fapp, ftr in H0. rewrite <- H0.
          apply xsum_ext. intros i Hi'. rewrite (proj2 (Nat.ltb_lt i n) Hi'). simpl. apply andb_comm. }
      simpl in E. rewrite (proj2 (Nat.ltb_lt k n) Hk), Hx in E. discriminate.
  - intros [B [HAB _]]. split.
    + exists (seq 0 n). split; [split; [apply seq_NoDup|intros i Hi; apply in_seq in Hi; lia]|].
      split; [apply seq_length|]. intros c Hc H0 i. destruct (c i) eqn:E; auto. exfalso.
      assert (Hi := Hc i E). apply in_seq in Hi.
      assert (X : xsum n (fun j => xsum n (fun k => c k && A k j) && B j i) = c i).
      { rewrite (xsum_ext n _ (fun j => xsum n (fun k => c k && (A k j && B j i)))).
        - rewrite xsum_swap. rewrite (xsum_ext n _ (fun k => c k && fid k i)).
          + apply xsum_fid_r. lia.
          + intros k Hk. rewrite xsum_andb_l. f_equal. apply (HAB k i); lia.
        - intros j Hj. rewrite <- xsum_andb_r. apply xsum_ext. intros. symmetry. apply andb_assoc. }
      rewrite xsum_false in X; [congruence|]. intros j Hj. rewrite H0; auto.
    + intros I [HN HI] _. replace n with (length (seq 0 n)) by apply seq_length.
      apply NoDup_incl_length; auto. intros i Hi. apply in_seq. apply HI in Hi. lia.
Qed.

(** ** More rows than columns: the column index runs out of range *)

Lemma up_n_ub : forall St (I : nat -> St -> Prop) body M k a s, I a s -> a <= M -> M < a + k ->
  (forall i x, i < M -> I i x -> wp (body i x) (I (S i))) -> (forall x, I M x -> body M x = UB) ->
  up_n k a body s = UB.
Proof.
  intros St I body M k. induction k as [|k IH]; intros a s H0 H1 H2 Hs Hu; [lia|]. simpl.
  destruct (Nat.eq_dec a M) as [->|].
  - rewrite Hu; auto.
  - destruct (wp_exists _ _ _ (Hs a s ltac:(lia) H0)) as (s' & -> & H'). simpl. apply IH; auto; lia.
Qed.
Definition shp (Q M t : nat) (st : mat * nat * nat) : Prop :=
  let '(lm, r, c) := st in bitmat Q M lm /\ c = t /\ r <= t.
Lemma shp_step : forall Q M t st, t < M -> M < Q -> shp Q M t st -> wp (echelon_step Q st) (shp Q M (S t)).
Proof.
  intros Q M t [[lm r] c] Ht HQ (Hm & -> & Hr). unfold echelon_step.
  apply wp_bind. apply (wp_find_up (fun k => pbits lm k t)); [lia| | |].
  - intros i H1 H2. apply (wp_is_one Q M); auto.
  - intros p Hp1 Hp2 _ _. apply wp_bind. apply wp_mono with (P := bitmat Q M).
    { destruct (Nat.eqb_spec p r); [exact Hm|]. apply (wp_py_swap Q M); [exact Hm|lia|lia|auto]. }
    intros lm1 Hm1. apply wp_bind. apply (wp_for_up _ (fun _ => bitmat Q M)); [lia|exact Hm1| |].
    + intros j lm2 Hj1 Hj2 Hm2. apply wp_bind. apply (wp_is_one Q M); auto. destruct (pbits lm2 j t); [|exact Hm2].
      assert (HL := proj1 Hm2).
      apply wp_bind, (wp_aget _ _ _ []); [lia|]. apply wp_bind, (wp_aget _ _ _ []); [lia|].
      apply wp_aset; [lia|].
      destruct (bitmat_row Q M lm2 r Hm2 ltac:(lia)) as [L1 B1].
      destruct (bitmat_row Q M lm2 j Hm2 ltac:(lia)) as [L2 B2].
      apply bitmat_upd; auto; [rewrite zip_xor_len; lia|]. apply zip_xor_bits; auto.
    + intros lm2 Hm2. apply wp_ok. unfold shp. refine (conj Hm2 (conj _ _)); lia.
  - intros _. apply wp_ok. unfold shp. refine (conj Hm (conj _ _)); lia.
Qed.
Lemma rank_tall : forall M Q m, M < Q -> bitmat Q M m -> rank M Q m = UB.
Proof.
  intros M Q m HQ Hm. unfold rank, row_echelon, for_up.
  rewrite (up_n_ub _ (shp Q M) _ M); auto; try lia.
  - unfold shp. refine (conj Hm (conj _ _)); lia.
  - intros i x Hi Hx. apply shp_step; auto.
  - intros [[lm r] c] (Hm' & -> & Hr). unfold echelon_step, find_up.
    destruct (Q - r) as [|k] eqn:E; [lia|]. simpl. unfold is_one, get2.
    destruct (bitmat_row Q M lm r Hm' ltac:(lia)) as [HL _].
    rewrite (aget_ok _ _ _ []) by (destruct Hm'; lia). simpl. rewrite aget_ub by lia. reflexivity.
Qed.
