(** Mattrans *)
From Coq Require Import Arith NArith List Bool Lia.
From Verif Require Import Base Tables Model Spec LinAlg Mem Cons.
Import ListNotations.

(** ** One butterfly *)

Lemma wp_butterfly : forall w l k msk m (Q : mat -> Prop),
  shapeM w m -> l + k < dim w -> 0 < k ->
  (forall m', shapeM w m' ->
     (forall r q, q < nw w -> word m' r q =
        if Nat.eqb r l
        then clip w (N.lxor (N.ldiff (word m l q) msk)
                            (N.shiftr (N.ldiff (word m (l + k) q) msk) (N.of_nat k)))
        else if Nat.eqb r (l + k)
        then clip w (N.lxor (N.land (word m (l + k) q) msk)
                            (N.shiftl (N.land (word m l q) msk) (N.of_nat k)))
        else word m r q) -> Q m') ->
  wp (butterfly w l k msk m) Q.
Proof.
  intros w l k msk m Q Hm Hl Hk HQ. unfold butterfly.
  apply wp_for_up with (I := fun h m' => shapeM w m' /\
    forall r q, q < nw w -> word m' r q =
     if Nat.ltb q h then
        if Nat.eqb r l
        then clip w (N.lxor (N.ldiff (word m l q) msk)
                            (N.shiftr (N.ldiff (word m (l + k) q) msk) (N.of_nat k)))
        else if Nat.eqb r (l + k)
        then clip w (N.lxor (N.land (word m (l + k) q) msk)
                            (N.shiftl (N.land (word m l q) msk) (N.of_nat k)))
        else word m r q
     else word m r q).
  - lia.
  - split; auto.
  - intros h m1 _ Hh [H1 H2].
    apply wp_bind. apply wp_mget with (w := w); auto; [lia|].
    apply wp_bind. apply wp_mget with (w := w); auto.
    cbv zeta. apply wp_bind. apply wp_mset with (w := w); auto.
    intros m2 E1 E2. apply wp_mset with (w := w); auto; [lia|].
    intros m3 F1 F2. split; auto. intros r q Hq. rewrite F2, !E2, !H2 by auto.
    destruct (Nat.ltb_spec h h); [lia|].
    destruct (Nat.eqb_spec q h) as [->|Hne].
    + destruct (Nat.ltb_spec h (S h)); [|lia]. rewrite !andb_true_r.
      destruct (Nat.eqb_spec r l) as [->|]; auto.
      destruct (Nat.eqb_spec r (l + k)) as [->|]; auto.
      destruct (Nat.ltb_spec h h); [lia|reflexivity].
    + rewrite !andb_false_r.
      destruct (Nat.ltb_spec q h), (Nat.ltb_spec q (S h)); try lia; reflexivity.
  - intros m' [H1 H2]. apply HQ; auto. intros r q Hq. rewrite H2 by auto.
    destruct (Nat.ltb_spec q (nw w)); [reflexivity|lia].
Qed.

(** bit j of an index *)
Definition bj (j c : nat) : nat := (c / 2 ^ j) mod 2.

Lemma bj_lt : forall j c, bj j c = 0 \/ bj j c = 1.
Proof. intros j c. unfold bj. pose proof (Nat.mod_upper_bound (c / 2 ^ j) 2). lia. Qed.
Lemma bj_add1 : forall j c, bj j (c + 2 ^ j) = 1 - bj j c.
Proof.
  intros j c. unfold bj. pose proof (Nat.pow_nonzero 2 j ltac:(lia)).
  replace (c + 2 ^ j) with (c + 1 * 2 ^ j) by lia. rewrite Nat.div_add by lia.
  pose proof (Nat.div_mod (c / 2 ^ j) 2 ltac:(lia)).
  pose proof (Nat.div_mod (c / 2 ^ j + 1) 2 ltac:(lia)).
  pose proof (Nat.mod_upper_bound (c / 2 ^ j) 2 ltac:(lia)).
  pose proof (Nat.mod_upper_bound (c / 2 ^ j + 1) 2 ltac:(lia)). lia.
Qed.
Lemma bj_sub1 : forall j c, 2 ^ j <= c -> bj j (c - 2 ^ j) = 1 - bj j c.
Proof.
  intros j c H. pose proof (bj_add1 j (c - 2 ^ j)) as E.
  replace (c - 2 ^ j + 2 ^ j) with c in E by lia.
  pose proof (bj_lt j (c - 2 ^ j)). lia.
Qed.

(** the masks select the columns whose index has bit j set, and columns c, c ^ 2^j
    lie in the same element *)
Definition mask_ok (w : width) (j c : nat) : bool :=
  let k := 2 ^ j in
  Bool.eqb (N.testbit (nth j (masks w) 0%N) (N.of_nat (wb w - 1 - c))) (Nat.eqb (bj j c) 1) &&
  (if Nat.eqb (bj j c) 1 then Nat.leb k c else Nat.ltb (c + k) (wb w)).
Lemma masks_check : forall w,
  forallb (fun j => forallb (mask_ok w j) (seq 0 (wb w))) (seq 0 (stages w)) = true.
Proof. destruct w; vm_compute; reflexivity. Qed.
Lemma masks_ok : forall w j c, j < stages w -> c < wb w ->
  N.testbit (nth j (masks w) 0%N) (N.of_nat (wb w - 1 - c)) = Nat.eqb (bj j c) 1 /\
  (bj j c = 1 -> 2 ^ j <= c) /\ (bj j c <> 1 -> c + 2 ^ j < wb w).
Proof.
  intros w j c Hj Hc. pose proof (masks_check w) as H. rewrite forallb_forall in H.
  specialize (H j). rewrite in_seq in H. specialize (H ltac:(lia)).
  rewrite forallb_forall in H. specialize (H c). rewrite in_seq in H.
  specialize (H ltac:(lia)). unfold mask_ok in H. cbv zeta in H.
  apply andb_true_iff in H. destruct H as [H1 H2]. apply eqb_prop in H1. split; auto.
  split; intros E.
  - rewrite E in H2. apply Nat.leb_le. exact H2.
  - apply Nat.eqb_neq in E. rewrite E in H2. apply Nat.ltb_lt. exact H2.
Qed.

(** bit j of a column index is bit j of the index inside the element *)
Lemma bj_mod_check : forall w,
  forallb (fun j => forallb (fun c => Nat.eqb (bj j (c mod wb w)) (bj j c)) (seq 0 (dim w)))
    (seq 0 (stages w)) = true.
Proof. destruct w; vm_compute; reflexivity. Qed.
Lemma bj_mod : forall w j c, j < stages w -> c < dim w -> bj j (c mod wb w) = bj j c.
Proof.
  intros w j c Hj Hc. pose proof (bj_mod_check w) as H. rewrite forallb_forall in H.
  specialize (H j). rewrite in_seq in H. specialize (H ltac:(lia)).
  rewrite forallb_forall in H. specialize (H c). rewrite in_seq in H.
  apply Nat.eqb_eq. apply H. lia.
Qed.

Lemma clip_bit : forall w x q, (q < N.of_nat (wb w))%N -> N.testbit (clip w x) q = N.testbit x q.
Proof.
  intros w x q Hq.
  assert (H : forall n, (q < N.of_nat n)%N -> N.testbit (x mod 2 ^ N.of_nat n) q = N.testbit x q).
  { intros n Hn. apply N.mod_pow2_bits_low. exact Hn. }
  destruct w; unfold clip, trunc; try (apply H; exact Hq).
  rewrite N.land_spec. change 15%N with (N.ones 4).
  rewrite N.ones_spec_low by exact Hq. apply andb_true_r.
Qed.
Lemma clip_bound : forall w x, (clip w x < 2 ^ N.of_nat (wb w))%N.
Proof.
  intros w x.
  destruct w; unfold clip, trunc; cbn [cb wb]; try (apply N.mod_lt, N.pow_nonzero; lia).
  apply bits_bound. intros k Hk. rewrite N.land_spec. change 15%N with (N.ones 4).
  rewrite N.ones_spec_high by exact Hk. apply andb_false_r.
Qed.

(** The butterfly on bits *)
Lemma wp_butterfly_bits : forall w l j m (Q : mat -> Prop),
  wfM w m -> j < stages w -> l + 2 ^ j < dim w ->
  (forall m', wfM w m' ->
     (forall r c, c < dim w -> mbit w m' r c =
        if Nat.eqb r l
        then (if Nat.eqb (bj j c) 1 then mbit w m (l + 2 ^ j) (c - 2 ^ j) else mbit w m l c)
        else if Nat.eqb r (l + 2 ^ j)
        then (if Nat.eqb (bj j c) 1 then mbit w m (l + 2 ^ j) c else mbit w m l (c + 2 ^ j))
        else mbit w m r c) -> Q m') ->
  wp (butterfly w l (2 ^ j) (nth j (masks w) 0%N) m) Q.
Proof.
  intros w l j m Q Hm Hj Hl HQ. apply mat_of_iff in Hm. destruct Hm as [Hs Hb].
  assert (P2 : 0 < 2 ^ j) by (apply Nat.neq_0_lt_0, Nat.pow_nonzero; lia).
  apply wp_butterfly; auto. intros m' Hs' Hw.
  apply HQ.
  - apply mat_of_iff. split; auto. intros r q.
    destruct (Nat.lt_ge_cases q (nw w)) as [Hq|Hq].
    + rewrite Hw by auto. destruct (Nat.eqb r l); [apply clip_bound|].
      destruct (Nat.eqb r (l + 2 ^ j)); [apply clip_bound|apply Hb].
    + rewrite (word_out w) by auto. apply N.neq_0_lt_0, N.pow_nonzero; lia.
  - intros r c Hc.
    pose proof (mod_lt_wb w c) as Hcm. pose proof (wb_pos w) as Pw.
    pose proof (Nat.div_mod c (wb w) ltac:(lia)) as Hdm.
    destruct (masks_ok w j (c mod wb w) Hj Hcm) as (HM & Hge & Hlt).
    rewrite (bj_mod w j c Hj Hc) in *.
    unfold mbit at 1. rewrite Hw by (apply div_lt_nw; auto).
    set (q := N.of_nat (wb w - 1 - c mod wb w)) in *.
    assert (Hq : (q < N.of_nat (wb w))%N) by (unfold q; lia).
    destruct (Nat.eqb_spec r l) as [->|Hrl]; [|destruct (Nat.eqb_spec r (l + 2 ^ j)) as [->|]].
    + rewrite clip_bit by auto. rewrite N.lxor_spec, N.ldiff_spec, N.shiftr_spec by lia.
      rewrite N.ldiff_spec, HM.
      destruct (Nat.eqb_spec (bj j c) 1) as [E|E]; simpl negb.
      * specialize (Hge E). rewrite andb_false_r, xorb_false_l.
        assert (Hd : (c - 2 ^ j) / wb w = c / wb w /\ (c - 2 ^ j) mod wb w = c mod wb w - 2 ^ j).
        { assert (Eq : c - 2 ^ j = wb w * (c / wb w) + (c mod wb w - 2 ^ j)) by lia.
          rewrite Eq. split; [apply div_block|apply mod_block]; lia. }
        unfold mbit. destruct Hd as [-> ->].
        replace (q + N.of_nat (2 ^ j))%N with (N.of_nat (wb w - 1 - (c mod wb w - 2 ^ j)))
          by (unfold q; lia).
        match goal with |- ?a && negb ?b = _ => assert (HMb : b = false) end.
        { destruct (masks_ok w j (c mod wb w - 2 ^ j) Hj ltac:(lia)) as (HM2 & _ & _).
          rewrite HM2, bj_sub1, (bj_mod w j c Hj Hc), E by auto. reflexivity. }
        rewrite HMb. apply andb_true_r.
      * rewrite andb_true_r.
        match goal with |- xorb _ ?b = _ => assert (HMb : b = false) end.
        { destruct (Nat.lt_ge_cases (c mod wb w) (2 ^ j)) as [Hlow|Hhigh].
          - rewrite (testbit_high (word m (l + 2 ^ j) (c / wb w)) (N.of_nat (wb w))); auto.
            unfold q; lia.
          - apply andb_false_iff. right. apply negb_false_iff.
            replace (q + N.of_nat (2 ^ j))%N with (N.of_nat (wb w - 1 - (c mod wb w - 2 ^ j)))
              by (unfold q; lia).
            destruct (masks_ok w j (c mod wb w - 2 ^ j) Hj ltac:(lia)) as (HM2 & _ & _).
            rewrite HM2, bj_sub1, (bj_mod w j c Hj Hc) by auto.
            destruct (bj_lt j c) as [E0|E0]; rewrite E0 in *; [reflexivity|lia]. }
        rewrite HMb, xorb_false_r. reflexivity.
    + rewrite clip_bit by auto. rewrite N.lxor_spec, N.land_spec, HM.
      destruct (Nat.eqb_spec (bj j c) 1) as [E|E].
      * rewrite andb_true_r.
        match goal with |- xorb _ ?b = _ => assert (HMb : b = false) end.
        { specialize (Hge E).
          destruct (N.lt_ge_cases q (N.of_nat (2 ^ j))) as [Hlow|Hhigh].
          - apply N.shiftl_spec_low; auto.
          - rewrite N.shiftl_spec_high by lia. rewrite N.land_spec.
            apply andb_false_iff. right.
            replace (q - N.of_nat (2 ^ j))%N with (N.of_nat (wb w - 1 - (c mod wb w + 2 ^ j)))
              by (unfold q in *; lia).
            destruct (masks_ok w j (c mod wb w + 2 ^ j) Hj ltac:(unfold q in *; lia)) as (HM2 & _ & _).
            rewrite HM2, bj_add1, (bj_mod w j c Hj Hc), E. reflexivity. }
        rewrite HMb, xorb_false_r. reflexivity.
      * rewrite andb_false_r, xorb_false_l. specialize (Hlt E).
        rewrite N.shiftl_spec_high by (unfold q; lia). rewrite N.land_spec.
        replace (q - N.of_nat (2 ^ j))%N with (N.of_nat (wb w - 1 - (c mod wb w + 2 ^ j)))
          by (unfold q in *; lia).
        destruct (masks_ok w j (c mod wb w + 2 ^ j) Hj Hlt) as (HM2 & _ & _).
        rewrite HM2.
        assert (E2 : bj j (c mod wb w + 2 ^ j) = 1).
        { rewrite bj_add1, (bj_mod w j c Hj Hc).
          destruct (bj_lt j c) as [E0|E0]; rewrite E0 in *; lia. }
        rewrite E2. simpl Nat.eqb. rewrite andb_true_r.
        assert (Hd : (c + 2 ^ j) / wb w = c / wb w /\ (c + 2 ^ j) mod wb w = c mod wb w + 2 ^ j).
        { assert (Eq : c + 2 ^ j = wb w * (c / wb w) + (c mod wb w + 2 ^ j)) by lia.
          rewrite Eq. split; [apply div_block|apply mod_block]; lia. }
        unfold mbit. destruct Hd as [-> ->]. reflexivity.
    + reflexivity.
Qed.

(** ** One stage: exchange bit j of the row index with bit j of the column index *)

Definition stage_fun (j : nat) (A : fmat) : fmat := fun r c =>
  A (r - bj j r * 2 ^ j + bj j c * 2 ^ j) (c - bj j c * 2 ^ j + bj j r * 2 ^ j).

(** the row numbers visited by a stage *)
Definition stage_rows (w : width) (j : nat) : list nat :=
  map (fun i => (2 ^ j * 2 * i) mod (dim w - 1)) (seq 0 (Nat.div2 (dim w))).
Fixpoint nodupb (l : list nat) : bool :=
  match l with [] => true | x :: t => negb (existsb (Nat.eqb x) t) && nodupb t end.
Lemma nodupb_ok : forall l, nodupb l = true -> NoDup l.
Proof.
  induction l as [|x t IH]; intros H; [constructor|]. simpl in H.
  apply andb_true_iff in H. destruct H as [H1 H2]. constructor; auto.
  intros Hin. apply negb_true_iff in H1.
  assert (existsb (Nat.eqb x) t = true); [|congruence].
  apply existsb_exists. exists x. split; auto. apply Nat.eqb_refl.
Qed.
Definition stage_rows_ok (w : width) (j : nat) : bool :=
  let L := stage_rows w j in
  nodupb L && forallb (fun l => Nat.ltb (l + 2 ^ j) (dim w) && Nat.eqb (bj j l) 0) L &&
  forallb (fun r => existsb (Nat.eqb (r - bj j r * 2 ^ j)) L) (seq 0 (dim w)).
Lemma stage_rows_check : forall w, forallb (stage_rows_ok w) (seq 0 (stages w)) = true.
Proof. destruct w; vm_compute; reflexivity. Qed.
Lemma stage_rows_facts : forall w j, j < stages w ->
  NoDup (stage_rows w j) /\
  (forall l, In l (stage_rows w j) -> l + 2 ^ j < dim w /\ bj j l = 0) /\
  (forall r, r < dim w -> In (r - bj j r * 2 ^ j) (stage_rows w j)).
Proof.
  intros w j Hj. pose proof (stage_rows_check w) as H. rewrite forallb_forall in H.
  specialize (H j). rewrite in_seq in H. specialize (H ltac:(lia)).
  unfold stage_rows_ok in H. cbv zeta in H.
  apply andb_true_iff in H. destruct H as [H H3]. apply andb_true_iff in H. destruct H as [H1 H2].
  split; [apply nodupb_ok; auto|]. split.
  - intros l Hl. rewrite forallb_forall in H2. specialize (H2 l Hl).
    apply andb_true_iff in H2. rewrite Nat.ltb_lt, Nat.eqb_eq in H2. exact H2.
  - intros r Hr. rewrite forallb_forall in H3. specialize (H3 r). rewrite in_seq in H3.
    specialize (H3 ltac:(lia)). apply existsb_exists in H3. destruct H3 as [x [Hx E]].
    apply Nat.eqb_eq in E. congruence.
Qed.

Lemma bj_le : forall j c, bj j c * 2 ^ j <= c.
Proof.
  intros j c. unfold bj. pose proof (Nat.pow_nonzero 2 j ltac:(lia)).
  pose proof (Nat.div_mod c (2 ^ j) ltac:(lia)).
  pose proof (Nat.mod_le (c / 2 ^ j) 2 ltac:(lia)). nia.
Qed.
Lemma bj_add : forall j l, bj j l = 0 -> bj j (l + 2 ^ j) = 1.
Proof. intros j l H. rewrite bj_add1, H. reflexivity. Qed.

(** base of the row pair of r *)
Definition pbase (j r : nat) : nat := r - bj j r * 2 ^ j.

Lemma wp_stage : forall w j m (Q : mat -> Prop),
  wfM w m -> j < stages w ->
  (forall m', wfM w m' -> feq (dim w) (mbit w m') (stage_fun j (mbit w m)) -> Q m') ->
  wp (for_up 0 (Nat.div2 (dim w)) (fun i m =>
        butterfly w ((2 ^ j * 2 * i) mod (dim w - 1)) (2 ^ j) (nth j (masks w) 0%N) m) m) Q.
Proof.
  intros w j m Q Hm Hj HQ.
  destruct (stage_rows_facts w j Hj) as (HND & HL & HC).
  set (L := stage_rows w j) in *.
  assert (LL : length L = Nat.div2 (dim w)) by (unfold L, stage_rows; rewrite map_length, seq_length; auto).
  apply wp_for_up with (I := fun i m' => wfM w m' /\
    forall r c, r < dim w -> c < dim w ->
      (In (pbase j r) (firstn i L) -> mbit w m' r c = stage_fun j (mbit w m) r c) /\
      (~ In (pbase j r) (firstn i L) -> mbit w m' r c = mbit w m r c)).
  - lia.
  - split; auto. intros r c Hr Hc. split; [intros []|auto].
  - intros i m1 _ Hi [Hm1 HI].
    set (l := (2 ^ j * 2 * i) mod (dim w - 1)).
    assert (El : nth i L 0 = l).
    { unfold L, stage_rows. rewrite nth_map_seq by auto. reflexivity. }
    assert (Hin : In l L) by (rewrite <- El; apply nth_In; lia).
    destruct (HL l Hin) as [Hl0 Hl1].
    assert (Hfirst : firstn (S i) L = firstn i L ++ [l]).
    { rewrite <- El. rewrite <- (firstn_skipn i L) at 1.
      assert (Hsk : skipn i L = nth i L 0 :: skipn (S i) L).
      { clear - LL Hi. revert i Hi LL. generalize (Nat.div2 (dim w)). induction L as [|x t IH]; intros n i Hi LL; simpl in LL; [lia|].
        destruct i; [reflexivity|]. simpl. apply (IH (n - 1)); lia. }
      rewrite Hsk. rewrite firstn_app, firstn_length, Nat.min_l by lia.
      replace (S i - i) with 1 by lia. rewrite firstn_firstn, Nat.min_r by lia. reflexivity. }
    assert (Hnew : ~ In l (firstn i L)).
    { intros Hold. rewrite <- (firstn_skipn (S i) L) in HND. rewrite Hfirst in HND.
      apply NoDup_remove_2 with (l := firstn i L) (l' := skipn (S i) L) (a := l).
      - rewrite <- app_assoc in HND. exact HND.
      - apply in_or_app. auto. }
    apply wp_butterfly_bits; auto. intros m2 Hm2 HB. split; auto.
    intros r c Hr Hc. rewrite Hfirst.
    assert (Hpl : pbase j l = l) by (unfold pbase; rewrite Hl1; lia).
    assert (Hpk : pbase j (l + 2 ^ j) = l) by (unfold pbase; rewrite (bj_add j l Hl1); lia).
    assert (HPr : pbase j r = l -> r = l \/ r = l + 2 ^ j).
    { unfold pbase. pose proof (bj_le j r). destruct (bj_lt j r) as [E|E]; rewrite E in *; lia. }
    assert (Old : forall r' c', r' < dim w -> c' < dim w -> (r' = l \/ r' = l + 2 ^ j) ->
              mbit w m1 r' c' = mbit w m r' c').
    { intros r' c' Hr' Hc' [-> | ->]; apply HI; auto; rewrite ?Hpl, ?Hpk; auto. }
    rewrite HB by auto. split.
    + intros Hin2.
      destruct (Nat.eqb_spec r l) as [->|Hrl].
      * unfold stage_fun. rewrite Hl1.
        destruct (bj_lt j c) as [E|E]; rewrite E; cbn [Nat.eqb].
        -- rewrite Old by auto. f_equal; lia.
        -- pose proof (bj_le j c). rewrite E in *. rewrite Old by (auto; lia). f_equal; lia.
      * destruct (Nat.eqb_spec r (l + 2 ^ j)) as [->|Hrk].
        -- unfold stage_fun. rewrite (bj_add j l Hl1).
           destruct (bj_lt j c) as [E|E]; rewrite E; cbn [Nat.eqb].
           ++ assert (c + 2 ^ j < dim w).
              { destruct (masks_ok w j (c mod wb w) Hj (mod_lt_wb w c)) as (_ & _ & Hlt).
                rewrite (bj_mod w j c Hj Hc) in Hlt. specialize (Hlt ltac:(lia)).
                pose proof (div_lt_nw w c Hc). pose proof (wb_pos w).
                pose proof (Nat.div_mod c (wb w) ltac:(lia)). rewrite (dim_eq w). nia. }
              rewrite Old by (auto; lia). f_equal; lia.
           ++ pose proof (bj_le j c) as Hle. rewrite E in Hle. rewrite Old by auto. f_equal; lia.
        -- assert (pbase j r <> l) by (intros E; apply HPr in E; lia).
           apply in_app_or in Hin2. destruct Hin2 as [Hin2|[Hin2|[]]]; [|congruence].
           apply HI; auto.
    + intros Hnin.
      destruct (Nat.eqb_spec r l) as [->|Hrl].
      { exfalso. apply Hnin. apply in_or_app. right. left. auto. }
      destruct (Nat.eqb_spec r (l + 2 ^ j)) as [->|Hrk].
      { exfalso. apply Hnin. apply in_or_app. right. left. auto. }
      apply HI; auto. intros H. apply Hnin. apply in_or_app. auto.
  - intros m' [Hm' HI]. apply HQ; auto. intros r c Hr Hc. apply HI; auto.
    rewrite firstn_all2 by lia. apply HC; auto.
Qed.

(** all stages *)
Lemma lo_step : forall K r c, 0 < K ->
  let r' := r - ((r / K) mod 2) * K + ((c / K) mod 2) * K in
  let c' := c - ((c / K) mod 2) * K + ((r / K) mod 2) * K in
  r' - r' mod K + c' mod K = r - r mod (K * 2) + c mod (K * 2).
Proof.
  intros K r c HK.
  assert (D : forall x, exists a b d, x = K * (2 * a + b) + d /\ b < 2 /\ d < K /\
              (x / K) mod 2 = b /\ x mod (K * 2) = K * b + d).
  { intros x. exists (x / K / 2), ((x / K) mod 2), (x mod K).
    pose proof (Nat.div_mod x K ltac:(lia)). pose proof (Nat.div_mod (x / K) 2 ltac:(lia)).
    pose proof (Nat.mod_upper_bound x K ltac:(lia)).
    pose proof (Nat.mod_upper_bound (x / K) 2 ltac:(lia)).
    repeat split; auto; try nia.
    symmetry. apply Nat.mod_unique with (q := x / K / 2); nia. }
  destruct (D r) as (a1 & b1 & d1 & E1 & B1 & L1 & M1 & N1).
  destruct (D c) as (a2 & b2 & d2 & E2 & B2 & L2 & M2 & N2).
  cbv zeta. rewrite M1, M2, N1, N2.
  assert (R1 : r - b1 * K + b2 * K = K * (2 * a1 + b2) + d1) by nia.
  assert (R2 : c - b2 * K + b1 * K = K * (2 * a2 + b1) + d2) by nia.
  rewrite R1, R2.
  rewrite <- (Nat.mod_unique (K * (2 * a1 + b2) + d1) K (2 * a1 + b2) d1) by auto.
  rewrite <- (Nat.mod_unique (K * (2 * a2 + b1) + d2) K (2 * a2 + b1) d2) by auto.
  nia.
Qed.

Definition low_swapped (J : nat) (A : fmat) : fmat := fun r c =>
  A (r - r mod 2 ^ J + c mod 2 ^ J) (c - c mod 2 ^ J + r mod 2 ^ J).

Lemma stage_low : forall J A r c, stage_fun J (low_swapped J A) r c = low_swapped (S J) A r c.
Proof.
  intros J A r c. unfold stage_fun, low_swapped, bj.
  pose proof (Nat.pow_nonzero 2 J ltac:(lia)).
  pose proof (lo_step (2 ^ J) r c ltac:(lia)) as H1.
  pose proof (lo_step (2 ^ J) c r ltac:(lia)) as H2.
  cbv zeta in H1, H2. rewrite H1, H2.
  replace (2 ^ S J) with (2 ^ J * 2) by (simpl; lia). reflexivity.
Qed.

Lemma stage_fun_ext : forall w j A B, j < stages w -> feq (dim w) A B ->
  feq (dim w) (stage_fun j A) (stage_fun j B).
Proof.
  intros w j A B Hj H r c Hr Hc. unfold stage_fun.
  assert (HH : forall x y, x < dim w -> x - bj j x * 2 ^ j + bj j y * 2 ^ j < dim w).
  { intros x y Hx. pose proof (bj_le j x).
    destruct (bj_lt j x) as [E|E], (bj_lt j y) as [F|F]; rewrite E, F in *; try lia.
    destruct (masks_ok w j (x mod wb w) Hj (mod_lt_wb w x)) as (_ & _ & Hlt).
    rewrite (bj_mod w j x Hj Hx) in Hlt. specialize (Hlt ltac:(lia)).
    pose proof (div_lt_nw w x Hx). pose proof (wb_pos w).
    pose proof (Nat.div_mod x (wb w) ltac:(lia)). rewrite (dim_eq w). nia. }
  apply H; apply HH; auto.
Qed.

(** ** The exchange of elements at the end, by renaming *)

Definition rmap {A B} (f : A -> B) (c : res A) : res B :=
  match c with Ok a => Ok (f a) | UB => UB end.

Lemma rmap_bind : forall A B C (f : B -> C) (c : res A) k,
  rmap f (bind c k) = bind c (fun a => rmap f (k a)).
Proof. intros A B C f [a|] k; reflexivity. Qed.

Lemma upd_map : forall A B (f : A -> B) l i x, upd (map f l) i (f x) = map f (upd l i x).
Proof. intros A B f l; induction l as [|h t IH]; intros [|i] x; simpl; auto. f_equal; auto. Qed.
Lemma aget_map : forall A B (f : A -> B) l i, aget (map f l) i = rmap f (aget l i).
Proof. intros A B f l i. unfold aget. rewrite nth_error_map. destruct (nth_error l i); reflexivity. Qed.
Lemma aset_map : forall A B (f : A -> B) l i x, aset (map f l) i (f x) = rmap (map f) (aset l i x).
Proof.
  intros A B f l i x. unfold aset. rewrite map_length. destruct (Nat.ltb i (length l)); simpl; auto.
  rewrite upd_map. reflexivity.
Qed.
Lemma mget_map : forall f m i k, mget (map (map f) m) i k = rmap f (mget m i k).
Proof.
  intros f m i k. unfold mget. rewrite aget_map. destruct (aget m i); simpl; auto. apply aget_map.
Qed.
Lemma mset_map : forall f m i k x, mset (map (map f) m) i k (f x) = rmap (map (map f)) (mset m i k x).
Proof.
  intros f m i k x. unfold mset. rewrite aget_map. destruct (aget m i) as [r|]; simpl; auto.
  rewrite aset_map. destruct (aset r k x) as [r'|]; simpl; auto. apply aset_map.
Qed.
Lemma swap_elem_map : forall f m a p b q,
  swap_elem (map (map f) m) a p b q = rmap (map (map f)) (swap_elem m a p b q).
Proof.
  intros f m a p b q. unfold swap_elem. rewrite !mget_map.
  destruct (mget m a p) as [x|]; simpl; auto. destruct (mget m b q) as [y|]; simpl; auto.
  rewrite mset_map. destruct (mset m a p y) as [m1|]; simpl; auto. apply mset_map.
Qed.
Lemma up_n_map : forall A B (g : A -> B) (body : nat -> A -> res A) (body' : nat -> B -> res B),
  (forall i a, body' i (g a) = rmap g (body i a)) ->
  forall n s a, up_n n s body' (g a) = rmap g (up_n n s body a).
Proof.
  intros A B g body body' H n. induction n as [|n IH]; intros s a; simpl; auto.
  rewrite H. destruct (body s a) as [a'|]; simpl; auto.
Qed.
Definition tail4 (i : nat) (m : mat) : res mat :=
  m1 <- swap_elem m (i + 64) 0 i 1 ;;
  m2 <- swap_elem m1 (i + 64) 2 i 3 ;;
  m3 <- swap_elem m2 (i + 192) 0 (i + 128) 1 ;;
  swap_elem m3 (i + 192) 2 (i + 128) 3.
Definition tail2 (i : nat) (m : mat) : res mat :=
  m1 <- swap_elem m (i + 128) 0 i 2 ;; swap_elem m1 (i + 128) 1 i 3.
Lemma tail4_map : forall f i m, tail4 i (map (map f) m) = rmap (map (map f)) (tail4 i m).
Proof.
  intros f i m. unfold tail4. rewrite swap_elem_map.
  destruct (swap_elem m (i + 64) 0 i 1) as [a1|]; cbn [bind rmap]; [|reflexivity].
  rewrite swap_elem_map. destruct (swap_elem a1 (i + 64) 2 i 3) as [a2|]; cbn [bind rmap]; [|reflexivity].
  rewrite swap_elem_map.
  destruct (swap_elem a2 (i + 192) 0 (i + 128) 1) as [a3|]; cbn [bind rmap]; [|reflexivity].
  apply swap_elem_map.
Qed.
Lemma tail2_map : forall f i m, tail2 i (map (map f) m) = rmap (map (map f)) (tail2 i m).
Proof.
  intros f i m. unfold tail2. rewrite swap_elem_map.
  destruct (swap_elem m (i + 128) 0 i 2) as [a1|]; cbn [bind rmap]; [|reflexivity].
  apply swap_elem_map.
Qed.
Lemma trans_tail_map : forall f w m,
  trans_tail w (map (map f) m) = rmap (map (map f)) (trans_tail w m).
Proof.
  intros f w m. destruct w; try reflexivity; unfold trans_tail.
  - unfold for_up. apply (up_n_map _ _ (map (map f))). intros i a. apply swap_elem_map.
  - unfold for_up. fold tail4. fold tail2.
    rewrite (up_n_map _ _ (map (map f)) tail4 tail4 (tail4_map f)).
    destruct (up_n (64 - 0) 0 tail4 m) as [m1|]; cbn [bind rmap]; [|reflexivity].
    exact (up_n_map _ _ (map (map f)) tail2 tail2 (tail2_map f) _ _ _).
Qed.

(** row and element number packed into one number *)
Definition pack (w : width) (i k : nat) : N := (N.of_nat i * 4 + N.of_nat k)%N.
Definition tail_word (w : width) (i k : nat) : N := pack w (wb w * k + i mod wb w) (i / wb w).

Fixpoint eqlN (a b : list N) : bool :=
  match a, b with
  | [], [] => true
  | x :: a', y :: b' => N.eqb x y && eqlN a' b'
  | _, _ => false
  end.
Fixpoint eqmN (a b : list (list N)) : bool :=
  match a, b with
  | [], [] => true
  | x :: a', y :: b' => eqlN x y && eqmN a' b'
  | _, _ => false
  end.
Lemma eqlN_ok : forall a b, eqlN a b = true -> a = b.
Proof.
  induction a as [|x a IH]; intros [|y b] H; try discriminate; auto. simpl in H.
  apply andb_true_iff in H. destruct H as [H1 H2]. apply N.eqb_eq in H1. f_equal; auto.
Qed.
Lemma eqmN_ok : forall a b, eqmN a b = true -> a = b.
Proof.
  induction a as [|x a IH]; intros [|y b] H; try discriminate; auto. simpl in H.
  apply andb_true_iff in H. destruct H as [H1 H2]. apply eqlN_ok in H1. f_equal; auto.
Qed.

Lemma tail_check : forall w,
  match trans_tail w (mk w (pack w)) with Ok m => eqmN m (mk w (tail_word w)) | UB => false end = true.
Proof. destruct w; vm_compute; reflexivity. Qed.

Lemma map_mk : forall w f g, map (map f) (mk w g) = mk w (fun i k => f (g i k)).
Proof.
  intros w f g. unfold mk. rewrite map_map. apply map_ext. intros i. rewrite map_map. reflexivity.
Qed.

Lemma trans_tail_ok : forall w m, shapeM w m ->
  trans_tail w m = Ok (mk w (fun i k => word m (wb w * k + i mod wb w) (i / wb w))).
Proof.
  intros w m Hm.
  set (f := fun x : N => word m (N.to_nat (x / 4)) (N.to_nat (x mod 4))).
  assert (Hf : forall i k, k < 4 -> f (pack w i k) = word m i k).
  { intros i k Hk. unfold f, pack.
    replace ((N.of_nat i * 4 + N.of_nat k) / 4)%N with (N.of_nat i).
    2:{ apply (N.div_unique _ 4 (N.of_nat i) (N.of_nat k)); lia. }
    replace ((N.of_nat i * 4 + N.of_nat k) mod 4)%N with (N.of_nat k).
    2:{ apply (N.mod_unique _ 4 (N.of_nat i) (N.of_nat k)); lia. }
    rewrite !Nat2N.id. reflexivity. }
  assert (N4 : nw w <= 4) by (destruct w; cbn; lia).
  assert (E : map (map f) (mk w (pack w)) = m).
  { rewrite map_mk. transitivity (mk w (word m)); [|apply mk_word; exact Hm].
    apply mk_ext. intros i k Hi Hk. apply Hf. lia. }
  transitivity (trans_tail w (map (map f) (mk w (pack w)))); [rewrite E; reflexivity|].
  rewrite trans_tail_map.
  pose proof (tail_check w) as HC. destruct (trans_tail w (mk w (pack w))) as [t|]; [|discriminate].
  apply eqmN_ok in HC. subst t. cbn [rmap]. rewrite map_mk. f_equal. apply mk_ext.
  intros i k Hi Hk. unfold tail_word. apply Hf. pose proof (div_lt_nw w i Hi). lia.
Qed.

(** ** Mattrans *)

Lemma wb_stages : forall w, wb w = 2 ^ stages w.
Proof. destruct w; reflexivity. Qed.
Lemma length_masks : forall w, length (masks w) = stages w.
Proof. destruct w; reflexivity. Qed.

Lemma low_swapped_0 : forall n A, feq n (low_swapped 0 A) A.
Proof.
  intros n A i j _ _. unfold low_swapped. change (2 ^ 0) with 1. rewrite !Nat.mod_1_r.
  f_equal; lia.
Qed.

Lemma Mattrans_wp : forall w m out, wfM w m -> shapeM w out ->
  wp (Mattrans w m out) (fun r => wfM w r /\ feq (dim w) (mbit w r) (ftr (mbit w m))).
Proof.
  intros w m out Hm Ho. unfold Mattrans. apply wp_bind.
  apply wp_for_up with (I := fun J m' => wfM w m' /\
     feq (dim w) (mbit w m') (low_swapped J (mbit w m))).
  - lia.
  - split; auto. apply feq_sym, low_swapped_0.
  - intros J m1 _ HJ [H1 H2]. cbv zeta. apply wp_bind.
    apply wp_aget with (d := 0%N); [rewrite length_masks; auto|].
    apply wp_stage; auto. intros m2 E1 E2. split; auto.
    eapply feq_trans; [exact E2|]. eapply feq_trans; [apply stage_fun_ext; [exact HJ|exact H2]|].
    intros r c _ _. apply stage_low.
  - intros m1 [H1 H2]. apply wp_bind. rewrite trans_tail_ok by auto using wfM_shape.
    apply wp_ok. rewrite copyM_ok by auto using shape_mk. apply wp_ok.
    pose proof H1 as H1'. apply mat_of_iff in H1'. destruct H1' as [S1 B1]. split.
    + apply mk_bound. auto.
    + intros i j Hi Hj. unfold ftr.
      pose proof (wb_pos w) as P. pose proof (mod_lt_wb w i). pose proof (mod_lt_wb w j).
      pose proof (div_lt_nw w i Hi). pose proof (div_lt_nw w j Hj).
      pose proof (Nat.div_mod i (wb w) ltac:(lia)) as Di.
      pose proof (Nat.div_mod j (wb w) ltac:(lia)) as Dj.
      assert (X : mbit w (mk w (fun i k => word m1 (wb w * k + i mod wb w) (i / wb w))) i j
                  = mbit w m1 (wb w * (j / wb w) + i mod wb w) (wb w * (i / wb w) + j mod wb w)).
      { unfold mbit. rewrite word_mk by auto. rewrite div_block, mod_block by auto. reflexivity. }
      rewrite X, H2 by (apply block_lt_dim; auto).
      unfold low_swapped. rewrite <- wb_stages. rewrite !mod_block by auto.
      f_equal; lia.
Qed.
