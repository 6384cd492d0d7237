(** Row equivalence of M4RI matrices, the rank of a rectangular echelon form, and the elimination of
    mzd_gauss_delayed. *)
From Coq Require Import Arith NArith ZArith List Bool Lia ZifyNat.
From Verif Require Import Base Spec LinAlg Elim Gauss SpecRank Rank ModelM4ri SpecM4ri M4ri1.
Import ListNotations.

(** ** Row equivalence, on all columns *)

Definition req (R : nat) (A B : fmat) : Prop :=
  exists V, invertible R V /\ forall i j, i < R -> B i j = fmul R V A i j.

Lemma fmul_assoc' : forall n A B C i j, fmul n (fmul n A B) C i j = fmul n A (fmul n B C) i j.
Proof.
  intros n A B C i j. unfold fmul.
  transitivity (xsum n (fun k => xsum n (fun l => A i l && B l k && C k j))).
  - apply xsum_ext. intros k Hk. rewrite <- xsum_andb_r. reflexivity.
  - rewrite xsum_swap. apply xsum_ext. intros l Hl.
    rewrite <- xsum_andb_l. apply xsum_ext. intros k Hk. symmetry. apply andb_assoc.
Qed.
Lemma fmul_fid_l' : forall n A i j, i < n -> fmul n fid A i j = A i j.
Proof. intros. unfold fmul. apply (xsum_fid_l n i (fun k => A k j)). exact H. Qed.
Lemma req_refl : forall R A, req R A A.
Proof. intros R A. exists fid. split; [exists fid; apply inverse_of_fid|]. intros. symmetry. apply fmul_fid_l'. exact H. Qed.
Lemma req_ext : forall R A B B', (forall i j, i < R -> B' i j = B i j) -> req R A B -> req R A B'.
Proof. intros R A B B' E (V & HV & H). exists V. split; auto. intros. rewrite E, H by auto. reflexivity. Qed.
Lemma req_trans : forall R A B C, req R A B -> req R B C -> req R A C.
Proof.
  intros R A B C (V & HV & H) (W & HW & H'). exists (fmul R W V). split; [apply invertible_mul; auto|].
  intros i j Hi. rewrite fmul_assoc', H' by auto. unfold fmul at 1 2. apply xsum_ext. intros k Hk. rewrite H by auto. reflexivity.
Qed.
Lemma req_radd : forall R A j i, j < R -> i < R -> j <> i -> req R A (radd j i A).
Proof.
  intros R A j i Hj Hi Hne. exists (radd j i fid). split; [exists (radd j i fid); apply radd_id_invertible; auto|].
  intros a b Ha. unfold radd, fmul. destruct (Nat.eqb_spec a j) as [->|].
  - rewrite (xsum_ext R _ (fun k => xorb (fid j k && A k b) (fid i k && A k b))).
    + rewrite xsum_xorb, !xsum_fid_l by auto. reflexivity.
    + intros k _. destruct (fid j k), (fid i k), (A k b); reflexivity.
  - rewrite xsum_fid_l by auto. reflexivity.
Qed.
Lemma req_rswap : forall R A i j, i < R -> j < R -> req R A (rswap i j A).
Proof.
  intros R A i j Hi Hj. exists (rswap i j fid). split; [exists (rswap i j fid); apply rswap_id_invertible; auto|].
  intros a b Ha. unfold rswap, fmul. rewrite xsum_fid_l; auto.
  destruct (Nat.eqb_spec a i); auto. destruct (Nat.eqb_spec a j); auto.
Qed.
Lemma req_row_equiv : forall R C A A' B B', (forall i j, i < R -> j < C -> A' i j = A i j) ->
  (forall i j, i < R -> j < C -> B' i j = B i j) -> req R A B -> row_equiv R C A' B'.
Proof.
  intros R C A A' B B' EA EB (V & HV & H). exists V. split; auto. intros i j Hi Hj.
  rewrite EB, H by auto. unfold fmul. apply xsum_ext. intros k Hk. rewrite EA by auto. reflexivity.
Qed.

(** ** Rank of a row echelon form *)

Definition lowpiv (R C : nat) (B : fmat) (p : nat) (q : nat -> nat) : Prop :=
  (forall i, i < p -> q i < C /\ B i (q i) = true /\ forall k, i < k -> k < R -> B k (q i) = false) /\
  (forall i j, p <= i -> i < R -> j < C -> B i j = false).

Lemma lowpiv_rank : forall R C A B p (q : nat -> nat), p <= R -> row_equiv R C A B ->
  lowpiv R C B p q -> rank_is R C A p.
Proof.
  intros R C A B p q Hp (V & [W [HVW HWV]] & HB) [Hq Hz].
  assert (HA : forall i j, i < R -> j < C -> A i j = fmul R W B i j).
  { intros i j Hi Hj. transitivity (fmul R W (fmul R V A) i j).
    - rewrite <- fmul_assoc'. unfold fmul at 1. rewrite <- (xsum_fid_l R i (fun k => A k j) Hi).
      apply xsum_ext. intros k Hk. rewrite HWV by auto. reflexivity.
    - unfold fmul at 1 3. apply xsum_ext. intros k Hk. rewrite HB by auto. reflexivity. }
  assert (Hup : forall I, rows_of R I -> indep R C A I -> length I <= p).
  { intros I HI Hi. apply (indep_bound R C A I p B W HI Hi).
    intros i j Hin Hj. assert (Hi' := proj2 HI i Hin). rewrite (HA i j Hi' Hj). unfold fmul.
    replace R with (p + (R - p)) by lia. rewrite xsum_add, (xsum_false (R - p)), xorb_false_r; auto.
    intros k Hk. rewrite Hz by lia. apply andb_false_r. }
  destruct (row_basis R C A R (le_n R)) as (I & HI & Hind & Hsp).
  assert (HpI : p <= length I).
  { assert (HP : rows_of R (seq 0 p)).
    { split; [apply seq_NoDup|]. intros i Hi. apply in_seq in Hi. lia. }
    replace p with (length (seq 0 p)) at 1 by apply seq_length.
    assert (HX : forall m, m <= R -> exists D : fmat, forall i, i < m ->
              (forall k, D i k = true -> In k I) /\
              forall j, j < C -> A i j = xsum R (fun k => D i k && A k j)).
    { induction m as [|m IHm]; intros Hm.
      - exists (fun _ _ => false). intros; lia.
      - destruct IHm as (D & HD); [lia|]. destruct (Hsp m ltac:(lia)) as (d & Hd).
        exists (fun i => if Nat.eqb i m then d else D i). intros i Hi.
        destruct (Nat.eqb_spec i m); [subst; exact Hd|apply HD; lia]. }
    destruct (HX R (le_n R)) as (D & HD).
    set (E := fun i l => xsum R (fun k => V i k && D k (nth l I 0))).
    apply (indep_bound R C B (seq 0 p) (length I) (fun l j => A (nth l I 0) j) E HP).
    - intros c Hc H0.
      assert (HC : forall m i, i < m -> c i = false).
      { induction m as [|m IHm]; intros i Hi; [lia|].
        destruct (Nat.eq_dec i m) as [->|]; [|apply IHm; lia].
        destruct (c m) eqn:Ec; auto. exfalso.
        assert (Hm := Hc m Ec). apply in_seq in Hm. destruct (Hq m ltac:(lia)) as (Q1 & Q2 & Q3).
        specialize (H0 (q m) Q1). rewrite (xsum_single R m) in H0; [|lia|].
        - rewrite Ec, Q2 in H0. discriminate.
        - intros k Hk Hne. destruct (Nat.lt_ge_cases k m); [rewrite IHm; auto|].
          rewrite Q3 by lia. apply andb_false_r. }
      intros i. apply (HC (S i)). lia.
    - intros i j Hi Hj. apply in_seq in Hi. rewrite (HB i j ltac:(lia) Hj). unfold fmul, E.
      rewrite (xsum_ext R _ (fun k => xsum (length I) (fun l => V i k && (D k (nth l I 0) && A (nth l I 0) j)))).
      + rewrite xsum_swap. apply xsum_ext. intros l Hl.
        rewrite (xsum_ext R _ (fun k => (V i k && D k (nth l I 0)) && A (nth l I 0) j))
          by (intros; apply andb_assoc).
        apply xsum_andb_r.
      + intros k Hk. destruct (HD k Hk) as (D1 & D2). rewrite xsum_andb_l. f_equal.
        rewrite (D2 j Hj).
        rewrite <- (xsum_list R I (fun l => D k (nth l I 0)) (fun i => A i j) HI).
        apply xsum_ext. intros i' Hi'. f_equal.
        destruct (D k i') eqn:Ed.
        * symmetry. apply existsb_exists. assert (Hin := D1 _ Ed).
          apply (In_nth _ _ 0) in Hin as (l & Hl & El). exists l.
          rewrite in_seq, El, Nat.eqb_refl, Ed. split; auto; lia.
        * symmetry. apply not_true_iff_false. intros H. apply existsb_exists in H as (l & H1 & H2).
          apply andb_true_iff in H2 as [H2 H3]. apply Nat.eqb_eq in H2. rewrite H2 in H3. congruence. }
  split; auto. exists I. split; auto. split; auto. specialize (Hup I HI Hind). lia.
Qed.

(** ** mzd_gauss_delayed *)

Definition pinv (full : bool) (R t : nat) (B : fmat) (r : nat) (q : nat -> nat) : Prop :=
  (forall l, l < r -> q l < t) /\
  (forall l l', l < l' -> l' < r -> q l < q l') /\
  (forall l j, l < r -> j < q l -> B l j = false) /\
  (forall l, l < r -> B l (q l) = true) /\
  (forall l i, l < r -> i < R -> (l < i \/ (full = true /\ i <> l)) -> B i (q l) = false) /\
  (forall i j, r <= i -> i < R -> j < t -> B i j = false).

Lemma pinv_skip : forall full R t B r q, pinv full R t B r q ->
  (forall i, r <= i -> i < R -> B i t = false) -> pinv full R (S t) B r q.
Proof.
  intros full R t B r q (P1 & P2 & P3 & P4 & P5 & P6) Hz.
  refine (conj _ (conj P2 (conj P3 (conj P4 (conj P5 _))))).
  - intros l Hl. specialize (P1 l Hl). lia.
  - intros i j Hi1 Hi2 Hj. destruct (Nat.eq_dec j t) as [->|]; auto. apply P6; auto. lia.
Qed.

Lemma pinv_step : forall full R t B B1 B2 r q j, pinv full R t B r q ->
  r <= j -> j < R -> B j t = true ->
  (forall a b, B1 a b = rswap r j B a b) ->
  (forall i b, i < R -> B2 i b = if Nat.leb (if full then 0 else r + 1) i && negb (Nat.eqb i r) && B1 i t
     then xorb (B1 i b) (B1 r b) else B1 i b) ->
  pinv full R (S t) B2 (r + 1) (fun l => if Nat.eqb l r then t else q l).
Proof.
  intros full R t B B1 B2 r q j (P1 & P2 & P3 & P4 & P5 & P6) Hj1 Hj2 Hb E1 E2.
  assert (Hlow : forall i b, i < r -> B1 i b = B i b).
  { intros i b Hi. rewrite E1. unfold rswap. destruct (Nat.eqb_spec i r); [lia|]. destruct (Nat.eqb_spec i j); [lia|reflexivity]. }
  assert (Hz1 : forall i b, r <= i -> i < R -> b < t -> B1 i b = false).
  { intros i b H1 H2 H3. rewrite E1. unfold rswap. apply P6; auto;
      destruct (Nat.eqb_spec i r); try lia; destruct (Nat.eqb_spec i j); lia. }
  assert (Hr : forall b, B1 r b = B j b).
  { intros b. rewrite E1. unfold rswap. rewrite Nat.eqb_refl. reflexivity. }
  assert (H21 : forall i b, i < R -> b < t -> B2 i b = B1 i b).
  { intros i b Hi Hbt. rewrite E2 by auto. rewrite (Hz1 r b) by lia. rewrite xorb_false_r.
    destruct (_ && _); reflexivity. }
  assert (Hcol : forall i, i < R -> (r < i \/ (full = true /\ i <> r)) -> B2 i t = false).
  { intros i Hi H. rewrite E2, Hr, Hb by auto.
    replace (Nat.leb (if full then 0 else r + 1) i) with true
      by (symmetry; apply Nat.leb_le; destruct full; destruct H as [|[]]; lia || discriminate).
    destruct (Nat.eqb_spec i r); [lia|]. cbn [negb andb]. destruct (B1 i t); reflexivity. }
  assert (Hrr : forall b, B2 r b = B1 r b).
  { intros b. rewrite E2 by lia. rewrite Nat.eqb_refl. rewrite andb_false_r. reflexivity. }
  refine (conj _ (conj _ (conj _ (conj _ (conj _ _))))).
  - intros l Hl. destruct (Nat.eqb_spec l r); [lia|]. specialize (P1 l). lia.
  - intros l l' H1 H2. destruct (Nat.eqb_spec l r); [lia|]. destruct (Nat.eqb_spec l' r); [apply P1; lia|apply P2; lia].
  - intros l b Hl Hbq. destruct (Nat.eqb_spec l r) as [->|].
    + rewrite Hrr. apply Hz1; lia.
    + assert (q l < t) by (apply P1; lia). rewrite H21, Hlow by lia. apply P3; lia.
  - intros l Hl. destruct (Nat.eqb_spec l r) as [->|].
    + rewrite Hrr, Hr. exact Hb.
    + assert (q l < t) by (apply P1; lia). rewrite H21, Hlow by lia. apply P4; lia.
  - intros l i Hl Hi H. destruct (Nat.eqb_spec l r) as [->|].
    + apply Hcol; auto.
    + assert (q l < t) by (apply P1; lia). rewrite H21 by lia. destruct (Nat.lt_ge_cases i r).
      * rewrite Hlow by auto. apply P5; auto; lia.
      * apply Hz1; auto.
  - intros i b H1 H2 H3. destruct (Nat.eq_dec b t) as [->|]; [apply Hcol; auto; lia|].
    rewrite H21 by lia. apply Hz1; lia.
Qed.

Lemma wp_gauss_step : forall R C full t M r p q (Q : mzd * nat * nat -> Prop), okm R C M -> t < C -> r <= R ->
  pinv full R t (bitat M) r q ->
  (forall M' r' q', okm R C M' -> req R (bitat M) (bitat M') -> r <= r' -> r' <= R -> pinv full R (S t) (bitat M') r' q' ->
     Q (M', r', p + (r' - r))) ->
  wp (gauss_step full t (M, r, p)) Q.
Proof.
  intros R C full t M r p q Q HM Ht Hr HP HQ. unfold gauss_step. rewrite (proj1 HM).
  apply wp_bind. apply (wp_find_up (fun j => bitat M j t)); [exact Hr| | |].
  - intros i _ Hi. apply (wp_read_bit R C); auto.
  - intros j Hj1 Hj2 Hb _. apply wp_bind. apply (wp_row_swap R C); auto; try lia.
    intros M1 HM1 E1. apply wp_bind. rewrite (proj1 HM1).
    assert (Hz1 : forall b, b < t -> bitat M1 r b = false).
    { intros b Hbt. rewrite E1. unfold rswap. rewrite Nat.eqb_refl. apply HP; auto. }
    apply (wp_for_up _ (fun ii M2 => okm R C M2 /\ req R (bitat M1) (bitat M2) /\
       forall i b, i < R -> bitat M2 i b =
         if Nat.leb (if full then 0 else r + 1) i && Nat.ltb i ii && negb (Nat.eqb i r) && bitat M1 i t
         then xorb (bitat M1 i b) (bitat M1 r b) else bitat M1 i b)).
    + destruct full; lia.
    + refine (conj HM1 (conj (req_refl _ _) _)). intros i b Hi.
      destruct (Nat.leb_spec (if full then 0 else r + 1) i), (Nat.ltb_spec i (if full then 0 else r + 1));
        try lia; reflexivity.
    + intros ii M2 Hi1 Hi2 (HM2 & HR2 & E2). destruct (Nat.eqb_spec ii r) as [->|Hne].
      * apply wp_ok. refine (conj HM2 (conj HR2 _)). intros i b Hi. rewrite E2 by auto.
        destruct (Nat.eqb_spec i r) as [->|]; cbn [negb]; rewrite ?andb_false_r; cbn [andb]; auto.
        destruct (Nat.ltb_spec i r), (Nat.ltb_spec i (S r)); try lia; reflexivity.
      * assert (Er : forall b, bitat M2 r b = bitat M1 r b).
        { intros b. rewrite E2 by lia. rewrite Nat.eqb_refl. cbn [negb]. rewrite andb_false_r. reflexivity. }
        assert (Ei : forall b, bitat M2 ii b = bitat M1 ii b).
        { intros b. rewrite E2 by lia. rewrite Nat.ltb_irrefl, andb_false_r. reflexivity. }
        apply wp_bind. apply (wp_read_bit R C); auto. rewrite Ei.
        destruct (bitat M1 ii t) eqn:Eb.
        -- apply (wp_row_add R C); auto; [lia|]. intros M3 HM3 E3. split; [exact HM3|].
           assert (E3' : forall a b, bitat M3 a b = radd ii r (bitat M2) a b).
           { intros a b. rewrite E3. unfold radd. destruct (Nat.eqb_spec a ii) as [->|]; auto. cbn [andb].
             destruct (Nat.leb_spec t b); auto. rewrite Er, Hz1 by auto. symmetry. apply xorb_false_r. }
           split.
           ++ apply (req_trans R _ (bitat M2)); auto. apply (req_ext R _ (radd ii r (bitat M2))); [intros; apply E3'|].
              apply req_radd; lia.
           ++ intros i b Hi. rewrite E3'. unfold radd. destruct (Nat.eqb_spec i ii) as [->|].
              ** rewrite Ei, Er. destruct (Nat.leb_spec (if full then 0 else r + 1) ii); [|lia].
                 destruct (Nat.ltb_spec ii (S ii)); [|lia]. destruct (Nat.eqb_spec ii r); [lia|]. rewrite Eb. reflexivity.
              ** rewrite E2 by auto. destruct (Nat.ltb_spec i ii), (Nat.ltb_spec i (S ii)); try lia; reflexivity.
        -- apply wp_ok. refine (conj HM2 (conj HR2 _)). intros i b Hi. rewrite E2 by auto.
           destruct (Nat.eqb_spec i ii) as [->|].
           ++ rewrite Eb, !andb_false_r. reflexivity.
           ++ destruct (Nat.ltb_spec i ii), (Nat.ltb_spec i (S ii)); try lia; reflexivity.
    + intros M2 (HM2 & HR2 & E2). apply wp_ok. replace (p + 1) with (p + (r + 1 - r)) by lia.
      apply (HQ M2 (r + 1) (fun l => if Nat.eqb l r then t else q l)); auto; [| lia | lia |].
      * apply (req_trans R _ (bitat M1)); auto. apply (req_ext R _ (rswap r j (bitat M))); [intros; apply E1|].
        apply req_rswap; lia.
      * apply (pinv_step full R t (bitat M) (bitat M1) (bitat M2) r q j); auto.
        intros i b Hi. rewrite E2 by auto. destruct (Nat.ltb_spec i R); [|lia]. rewrite andb_true_r. reflexivity.
  - intros Hz. apply wp_ok. replace p with (p + (r - r)) by lia. apply (HQ M r q); auto.
    + apply req_refl.
    + apply pinv_skip; auto.
Qed.

Lemma wp_echelonize_naive : forall R C full M (Q : mzd * nat -> Prop), okm R C M ->
  (forall M' r q, okm R C M' -> req R (bitat M) (bitat M') -> r <= R -> pinv full R C (bitat M') r q -> Q (M', r)) ->
  wp (mzd_echelonize_naive M full) Q.
Proof.
  intros R C full M Q HM HQ. unfold mzd_echelonize_naive, mzd_gauss_delayed.
  rewrite (proj1 (proj2 HM)). apply wp_bind.
  apply (wp_for_up _ (fun t '(M', r, p) => exists q, p = r /\ okm R C M' /\ req R (bitat M) (bitat M') /\ r <= R /\
     pinv full R t (bitat M') r q)); [lia| | |].
  - exists (fun _ => 0). refine (conj eq_refl (conj HM (conj (req_refl _ _) (conj (Nat.le_0_l R) _)))).

    refine (conj _ (conj _ (conj _ (conj _ (conj _ _))))); intros; lia.
  - intros t [[M' r] p] _ Ht (q & -> & HM' & HR & Hr & HP).
    apply (wp_gauss_step R C full t M' r r q); auto. intros M2 r2 q2 H1 H2 H3 H4 H5.
    exists q2. refine (conj _ (conj H1 (conj _ (conj H4 H5)))); [lia|]. apply (req_trans R _ (bitat M')); auto.
  - intros [[M' r] p] (q & -> & HM' & HR & Hr & HP). apply wp_ok. apply (HQ M' r q); auto.
Qed.

Lemma pinv_lowpiv : forall full R C B r q, pinv full R C B r q -> lowpiv R C B r q.
Proof.
  intros full R C B r q (P1 & P2 & P3 & P4 & P5 & P6). split; [|exact P6].
  intros i Hi. refine (conj (P1 i Hi) (conj (P4 i Hi) _)). intros k Hk1 Hk2. apply P5; auto.
Qed.
Lemma increasing_id : forall n (q : nat -> nat), (forall l, l < n -> q l < n) ->
  (forall l l', l < l' -> l' < n -> q l < q l') -> forall l, l < n -> q l = l.
Proof.
  intros n q H1 H2. assert (Hge : forall l, l < n -> l <= q l).
  { induction l as [|l IH]; intros Hl; [lia|]. specialize (H2 l (S l) ltac:(lia) Hl). specialize (IH ltac:(lia)). lia. }
  assert (Hle : forall d l, l + d < n -> q l + d <= q (l + d)).
  { induction d as [|d IH]; intros l Hl; [rewrite !Nat.add_0_r; lia|].
    specialize (IH l ltac:(lia)). specialize (H2 (l + d) (l + S d) ltac:(lia) ltac:(lia)). lia. }
  intros l Hl. specialize (Hge l Hl). specialize (Hle (n - 1 - l) l ltac:(lia)).
  replace (l + (n - 1 - l)) with (n - 1) in Hle by lia. specialize (H1 (n - 1) ltac:(lia)). lia.
Qed.

Lemma naive_invertible : forall n M, okm n n M -> 0 < n ->
  wp (IsMatGf2Invertible M) (fun b => b = true <-> invertible n (bitat M)).
Proof.
  intros n M HM Hn. unfold IsMatGf2Invertible. rewrite (proj1 HM), (proj1 (proj2 HM)), Nat.eqb_refl. cbn [negb].
  apply wp_bind. apply (wp_copy n n); auto. intros X HX EX. apply wp_bind.
  apply (wp_echelonize_naive n n); auto. intros M' r q HM' HR Hr HP. rewrite (proj1 HM').
  destruct (Nat.eqb_spec n 0); [lia|]. apply (wp_read_bit n n); auto; try lia.
  assert (RK : rank_is n n (bitat M) r).
  { apply (lowpiv_rank n n _ (bitat M') r q); auto; [|apply (pinv_lowpiv false); exact HP].
    apply (req_row_equiv n n (bitat X) _ (bitat M') _); auto. intros. symmetry. apply EX. auto. }
  destruct HP as (P1 & P2 & P3 & P4 & P5 & P6). split.
  - intros H. apply full_rank. replace n with r at 3; auto. destruct (Nat.eq_dec r n); auto.
    rewrite P6 in H by lia. discriminate.
  - intros H. apply full_rank in H. assert (r = n) by (apply (rank_is_unique n n (bitat M)); auto). subst r.
    rewrite <- (P4 (n - 1)) by lia. f_equal. symmetry. apply (increasing_id n q); auto. lia.
Qed.
