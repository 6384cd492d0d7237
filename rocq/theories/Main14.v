(** C67 and C68: the Berlekamp-Massey algorithm of the randomness tests and the reference
    probabilities of the linear complexity test. *)
From Coq Require Import Arith NArith ZArith QArith List Bool Lia.
From Verif Require Import Base Spec LinAlg ModelRank ModelBM SpecBM BM LCCount.
Import ListNotations.
Local Open Scope nat_scope.

(** C67: berelekamp_massey returns the length of the shortest linear feedback shift register that
    produces the bits, and the first coefficients (all but the last) of such a register. *)
Lemma C67_berlekamp_massey_main : forall bits, bits <> [] -> (forall x, In x bits -> x = 0%N \/ x = 1%N) ->
  exists L p, berelekamp_massey bits = Ok (L, p) /\ lincomp (length bits) (seqbits bits) L /\
    exists f, lfsr (length bits) (seqbits bits) L f /\ length p = L /\ forall i, S i < L -> seqbits p (S i) = f i.
Proof.
  intros bits Hne Hb. destruct (wp_exists _ _ _ (bm_wp bits Hne Hb)) as ([L p] & E & H1 & H2). exists L, p. auto.
Qed.
(** C67: the list of coefficients it returns is one short: read as the polynomial of the register it
    does not produce the bits. *)
Lemma C67_polynomial_refuted_main : exists bits L p, (forall x, In x bits -> x = 0%N \/ x = 1%N) /\
  berelekamp_massey bits = Ok (L, p) /\ ~ lfsr (length bits) (seqbits bits) L (fun i => seqbits p (S i)).
Proof.
  exists [1; 1; 1]%N, 1, [1]%N. split; [|split].
  - intros x [<-|[<-|[<-|[]]]]; auto.
  - vm_compute. reflexivity.
  - intros H. specialize (H 1 ltac:(lia) ltac:(simpl; lia)). vm_compute in H. discriminate.
Qed.
(** C67: the empty list raises an exception. *)
Lemma C67_empty_main : berelekamp_massey [] = UB.
Proof. reflexivity. Qed.
(** C67: the test collects the linear complexities of the blocks of M bits. *)
Lemma C67_blocks_main : forall M bits, 0 < M -> (forall x, In x bits -> x = 0%N \/ x = 1%N) ->
  exists LC, complexities M bits = Ok LC /\ length LC = length bits / M /\
    forall i, i < length bits / M -> lincomp M (fun k => seqbits bits (i * M + k)) (nth i LC 0).
Proof.
  intros M bits HM Hb. apply wp_exists. unfold complexities.
  apply (wp_for_up _ (fun t LC => length LC = t /\
    forall i, i < t -> lincomp M (fun k => seqbits bits (i * M + k)) (nth i LC 0))); [lia| | |].
  - split; auto. intros; lia.
  - intros i LC _ Hi [HL H].
    assert (Hle : (i + 1) * M <= length bits).
    { assert (X := Nat.mul_div_le (length bits) M ltac:(lia)). nia. }
    set (x := pyslice bits (i * M) ((i + 1) * M)).
    assert (Lx : length x = M) by (unfold x, pyslice; rewrite firstn_length, skipn_length; lia).
    assert (Ex : forall k, k < M -> nth k x 0%N = nth (i * M + k) bits 0%N).
    { intros k Hk. unfold x, pyslice.
      assert (X1 : forall (l : list N) n j, j < n -> nth j (firstn n l) 0%N = nth j l 0%N).
      { clear. induction l; intros [|n] [|j] H; simpl; auto; try lia. apply IHl. lia. }
      assert (X2 : forall p (l : list N) j, nth j (skipn p l) 0%N = nth (p + j) l 0%N).
      { clear. induction p; intros [|y l] j; simpl; auto. destruct j; auto. }
      rewrite X1, X2 by lia. reflexivity. }
    assert (Hx : forall y, In y x -> y = 0%N \/ y = 1%N).
    { intros y Hy. apply Hb. unfold x, pyslice in Hy. rewrite <- (firstn_skipn (i * M) bits). apply in_app_iff. right.
      rewrite <- (firstn_skipn ((i + 1) * M - i * M) (skipn (i * M) bits)). apply in_app_iff. auto. }
    apply wp_bind. eapply wp_mono; [apply bm_wp; auto; intros E; rewrite E in Lx; simpl in Lx; lia|].
    intros [L p] [H1 _]. apply wp_ok. cbn [fst] in H1. rewrite Lx in H1. split; [rewrite app_length; simpl; lia|].
    intros j Hj. destruct (Nat.eq_dec j i) as [->|].
    + assert (En : nth i (LC ++ [L]) 0 = L) by (rewrite <- HL; apply nth_middle). rewrite En. eapply lincomp_ext; [|exact H1].
      intros k Hk. unfold seqbits. rewrite Ex by auto. reflexivity.
    + rewrite app_nth1 by lia. apply H. lia.
  - auto.
Qed.
(** C67: the example in the source file: 13 bits of linear complexity 4. *)
Example C67_ex_main : berelekamp_massey [1; 1; 0; 1; 0; 1; 1; 1; 1; 0; 0; 0; 1]%N = Ok (4, [1; 0; 0; 1]%N) /\
  complexities 4 [1; 1; 0; 1; 0; 0; 0; 0; 0; 0; 0; 1; 1]%N = Ok [2; 0; 4].
Proof. split; vm_compute; reflexivity. Qed.

(** C68: the number of sequences of n bits with linear complexity L is 1 for L = 0 and
    2^min(2n-2L, 2L-1) for L = 1..n; there are none with L > n. *)
Lemma C68_count_main : forall n L, exists ws, NoDup ws /\
  (forall w, In w ws <-> length w = n /\ (forall x, In x w -> x = 0%N \/ x = 1%N) /\ lincomp n (seqbits w) L) /\
  N.of_nat (length ws) = if L =? 0 then 1%N else if n <? L then 0%N else (2 ^ N.of_nat (Nat.min (2 * n - 2 * L) (2 * L - 1)))%N.
Proof.
  intros n L. exists (filter (fun w => Nat.eqb (lc w) L) (words n)). refine (conj _ (conj _ _)).
  - apply NoDup_filter, words_nodup.
  - intros w. rewrite filter_In, words_in, Nat.eqb_eq. split.
    + intros [[H1 H2] <-]. refine (conj H1 (conj H2 _)). rewrite <- H1. apply lc_spec; auto.
    + intros (H1 & H2 & H3). split; auto. apply (lincomp_unique n (seqbits w)); auto. rewrite <- H1. apply lc_spec; auto.
  - apply (cnt_formula n L).
Qed.
(** C68: the classes of the test for blocks of 512 bits: complexity at most 253, 254, 255, 256, 257, 258,
    at least 259. *)
Lemma C68_class_main : forall L, L <= 512 -> lc_class (lc_T 512 L) =
  if L <=? 253 then 0 else if 259 <=? L then 6 else L - 253.
Proof. exact cls_ok. Qed.
(** C68: the reference probabilities of the test are the exact probabilities of the classes for a
    uniformly distributed block of 512 bits, within 10^-6. *)
Lemma C68_pi_main : forall k, k < 7 -> exists ws, NoDup ws /\
  (forall w, In w ws <-> length w = 512 /\ (forall x, In x w -> x = 0%N \/ x = 1%N) /\
     exists L, lincomp 512 (seqbits w) L /\ lc_class (lc_T 512 L) = k) /\
  (let f := inject_Z (Z.of_nat (length ws)) / inject_Z (2 ^ 512) in
   f - nth k lc_pi 0 <= 1 # 1000000 /\ nth k lc_pi 0 - f <= 1 # 1000000)%Q.
Proof.
  intros k Hk.
  assert (G : forall n (p : nat -> bool), exists ws, NoDup ws /\
    (forall w, In w ws <-> length w = n /\ (forall x, In x w -> x = 0%N \/ x = 1%N) /\ exists L, lincomp n (seqbits w) L /\ p L = true) /\
    N.of_nat (length ws) = sumN (fun L => if p L then formula n L else 0%N) (seq 0 (S n))).
  { intros n p. exists (filter (fun w => p (lc w)) (words n)). refine (conj _ (conj _ _)).
    - apply NoDup_filter, words_nodup.
    - intros w. rewrite filter_In, words_in. split.
      + intros [[H1 H2] H3]. refine (conj H1 (conj H2 _)). exists (lc w). split; auto. rewrite <- H1. apply lc_spec; auto.
      + intros (H1 & H2 & L & H3 & H4). split; auto. replace (lc w) with L; auto.
        apply (lincomp_unique n (seqbits w)); auto. rewrite <- H1. apply lc_spec; auto.
    - apply class_count. }
  destruct (G 512 (fun L => Nat.eqb (cls L) k)) as (ws & H1 & H2 & H3). exists ws. refine (conj H1 (conj _ _)).
  - intros w. rewrite H2. split; intros (A & B & L & C & D); refine (conj A (conj B _)); exists L; (split; [exact C|]);
      (assert (HL : L <= 512) by (destruct C as [_ C]; apply (C 512 (fun _ => false)); intros i E1 E2; lia)).
    + rewrite cls_ok by exact HL. apply Nat.eqb_eq, D.
    + rewrite cls_ok in D by exact HL. apply Nat.eqb_eq, D.
  - assert (E : Z.of_nat (length ws) = Z.of_N (sumN (fun L => if Nat.eqb (cls L) k then formula 512 L else 0%N) (seq 0 513))).
    { rewrite <- H3. symmetry. apply nat_N_Z. }
    cbv zeta. rewrite (class_frac_eq k _ E). exact (pi_le k Hk).
Qed.
(** C68: the numbers for n = 5, by the formula and by running the algorithm on all 32 sequences. *)
Example C68_ex_main :
  map (fun L => if L =? 0 then 1%N else if 5 <? L then 0%N else (2 ^ N.of_nat (Nat.min (2 * 5 - 2 * L) (2 * L - 1)))%N) (seq 0 7)
    = [1; 2; 8; 16; 4; 1; 0]%N /\
  map (fun L => N.of_nat (length (filter (fun w => Nat.eqb (lc w) L) (words 5)))) (seq 0 7) = [1; 2; 8; 16; 4; 1; 0]%N.
Proof. split; vm_compute; reflexivity. Qed.
