(** C65 and C66: the rank computation of the randomness tests, and the rank test on sequences of
    invertible matrices. *)
From Coq Require Import Arith NArith ZArith QArith Reals Qreals Lra List Bool Lia.
From Verif Require Import Base Model Spec LinAlg Gauss ModelSM4 ModelRank SpecRank Rank RankTest GenPair Mem.
Import ListNotations.
Local Open Scope nat_scope.

(** C65: for a square matrix rank returns the rank: the largest number of linearly independent
    rows. *)
Lemma C65_rank_main : forall n m, bitmat n n m -> exists r, rank n n m = Ok r /\ rank_is n n (pbits m) r.
Proof. intros n m. apply rank_ok. Qed.
(** C65: in particular it returns n exactly for the invertible matrices. *)
Lemma C65_full_main : forall n m, bitmat n n m -> (rank n n m = Ok n <-> invertible n (pbits m)).
Proof.
  intros n m Hm. destruct (rank_ok n n m Hm) as (r & E & Hr). rewrite <- full_rank, E. split.
  - intros [= ->]. exact Hr.
  - intros H. f_equal. apply (rank_is_unique n n (pbits m)); auto.
Qed.
(** C65: with more rows than columns (M < Q) rank raises an exception, whatever the matrix. *)
Lemma C65_tall_main : forall M Q m, M < Q -> bitmat Q M m -> rank M Q m = UB.
Proof. exact rank_tall. Qed.
(** C65: with more columns than rows the result can be wrong: the elimination stops after Q columns.
    Two equal rows 0 0 1 are counted as rank 2. *)
Lemma C65_wide_refuted_main : exists M Q m r, bitmat Q M m /\ rank M Q m = Ok r /\ ~ rank_is Q M (pbits m) r.
Proof.
  exists 3, 2, [[0; 0; 1]; [0; 0; 1]]%N, 2. split; [|split].
  - split; [reflexivity|]. intros row [<-|[<-|[]]]; (split; [reflexivity|]; intros x [<-|[<-|[<-|[]]]]; auto).
  - vm_compute. reflexivity.
  - intros [(I & [HN HI] & HL & Hi) _].
    assert (H2 : incl (seq 0 2) I).
    { apply NoDup_length_incl; auto; [rewrite seq_length; lia|]. intros i H. apply in_seq. apply HI in H. lia. }
    assert (E : (fun i => i <? 2) 0 = false); [|discriminate].
    refine (Hi (fun i => i <? 2) _ _ 0).
    + intros i H. apply Nat.ltb_lt in H. apply H2, in_seq. lia.
    + intros j Hj. destruct j as [|[|[|j]]]; try lia; reflexivity.
Qed.
(** C65: computeRank, the other rank function of the file, is wrong: it gives 3 for a 3 by 3 matrix
    with two equal rows. *)
Lemma C65_computeRank_refuted_main : exists n m r,
  bitmat n n m /\ computeRank n n m = Ok (Z.of_nat r) /\ ~ rank_is n n (pbits m) r.
Proof.
  exists 3, [[0; 1; 0]; [1; 0; 0]; [1; 0; 0]]%N, 3.
  assert (Hm : bitmat 3 3 [[0; 1; 0]; [1; 0; 0]; [1; 0; 0]]%N).
  { split; [reflexivity|]. intros row [<-|[<-|[<-|[]]]]; (split; [reflexivity|]; intros x [<-|[<-|[<-|[]]]]; auto). }
  split; [exact Hm|]. split; [vm_compute; reflexivity|]. intros H.
  destruct (rank_ok 3 3 _ Hm) as (r & E & Hr). vm_compute in E. injection E as <-.
  assert (X := rank_is_unique _ _ _ _ _ H Hr). discriminate.
Qed.
(** C65: two matrices, of rank 2 and 3. *)
Example C65_ex_main :
  bitmat 3 3 [[0; 1; 0]; [1; 0; 0]; [1; 0; 0]]%N /\ rank 3 3 [[0; 1; 0]; [1; 0; 0]; [1; 0; 0]]%N = Ok 2 /\
  bitmat 3 3 [[0; 1; 1]; [1; 0; 0]; [1; 0; 1]]%N /\ rank 3 3 [[0; 1; 1]; [1; 0; 0]; [1; 0; 1]]%N = Ok 3.
Proof.
  assert (X : forall a b c d e f g h i, (forall x, In x [a; b; c; d; e; f; g; h; i] -> x = 0%N \/ x = 1%N) ->
    bitmat 3 3 [[a; b; c]; [d; e; f]; [g; h; i]]).
  { intros a b c d e f g h i H. split; [reflexivity|].
    intros row [<-|[<-|[<-|[]]]]; (split; [reflexivity|]; intros x [<-|[<-|[<-|[]]]]; apply H; simpl; tauto). }
  refine (conj _ (conj _ (conj _ _))).
  - apply X. intros x Hx. repeat (destruct Hx as [<-|Hx]; [auto|]). destruct Hx.
  - vm_compute. reflexivity.
  - apply X. intros x Hx. repeat (destruct Hx as [<-|Hx]; [auto|]). destruct Hx.
  - vm_compute. reflexivity.
Qed.

(** C66: the rank test counts the blocks of n by n bits by their rank. *)
Lemma C66_counts_main : forall n bits, 0 < n -> (forall x, In x bits -> x = 0%N \/ x = 1%N) ->
  exists FM FMM rem rs, rank_counts n n bits = Ok (FM, FMM, rem) /\
    length rs = length bits / (n * n) /\
    (forall k, k < length bits / (n * n) -> rank_is n n (blk n bits k) (nth k rs 0)) /\
    FM = count_occ Nat.eq_dec rs n /\ FMM = count_occ Nat.eq_dec rs (n - 1) /\
    FM + FMM + rem = length bits / (n * n).
Proof.
  intros n bits Hn Hb. destruct (wp_exists _ _ _ (rank_counts_wp n bits Hb)) as ([[FM FMM] rem] & E & (rs & H1 & H2 & H3 & H4 & H5)).
  exists FM, FMM, rem, rs. auto 10.
Qed.
(** C66: on a file of at least 38 invertible 32-bit matrices, in the memory order of either machine
    and with either order of the bits in a byte, all blocks have full rank and the chi-square value
    is at least 91. *)
Lemma C66_chisq_main : forall be e ms, 38 <= length ms ->
  Forall (fun m => shapeM W32 m /\ invertible 32 (mbit W32 m)) ms ->
  rank_counts 32 32 (read_bits be (file_bytes e ms)) = Ok (length ms, 0, 0) /\
  exists chisq, binary_matrix_rank_test 32 32 (read_bits be (file_bytes e ms)) = Ok (Some chisq) /\ (91 <= chisq)%Q.
Proof. exact rank_test_invertible. Qed.
(** C66: so the p-value e^(-chisq/2) is below 0.01 and the test fails. *)
Lemma C66_fail_main : forall be e ms, 38 <= length ms ->
  Forall (fun m => shapeM W32 m /\ invertible 32 (mbit W32 m)) ms ->
  exists chisq, binary_matrix_rank_test 32 32 (read_bits be (file_bytes e ms)) = Ok (Some chisq) /\
    (exp (- Q2R chisq / 2) < 1 / 100)%R.
Proof.
  intros be e ms HN H. destruct (rank_test_invertible be e ms HN H) as [_ (c & E & Hc)]. exists c. split; auto.
  apply Qle_Rle in Hc. assert (Hq : Q2R 91 = 91%R) by (unfold Q2R; simpl; lra). rewrite Hq in Hc.
  assert (H1 : (20 < exp 20)%R) by (generalize (exp_ineq1 20); lra).
  assert (H2 : (exp (20 + 20) = exp 20 * exp 20)%R) by apply exp_plus.
  assert (H3 : (100 < exp (20 + 20))%R) by (rewrite H2; nra).
  assert (H4 : (exp (- Q2R c / 2) * exp (20 + 20) <= 1)%R).
  { rewrite <- exp_plus, <- exp_0. destruct (Req_dec (- Q2R c / 2 + (20 + 20)) 0) as [->|].
    - lra.
    - left. apply exp_increasing. lra. }
  assert (H5 := exp_pos (- Q2R c / 2)). nra.
Qed.
(** C66: so do the sequences made by genMatpair, both the matrices and the inverses. *)
Lemma C66_genMatpair_main : forall be e e' (ps : list (mat * mat)), 38 <= length ps ->
  (forall p, In p ps -> exists m v s s', shapeM W32 m /\ shapeM W32 v /\ genMatpair e' W32 m v s = Ok (p, s')) ->
  (exists chisq, binary_matrix_rank_test 32 32 (read_bits be (file_bytes e (map fst ps))) = Ok (Some chisq) /\
    (exp (- Q2R chisq / 2) < 1 / 100)%R) /\
  (exists chisq, binary_matrix_rank_test 32 32 (read_bits be (file_bytes e (map snd ps))) = Ok (Some chisq) /\
    (exp (- Q2R chisq / 2) < 1 / 100)%R).
Proof.
  intros be e e' ps HN H.
  assert (X : forall p, In p ps -> (shapeM W32 (fst p) /\ invertible 32 (mbit W32 (fst p))) /\
    (shapeM W32 (snd p) /\ invertible 32 (mbit W32 (snd p)))).
  { intros [a b] Hp. destruct (H _ Hp) as (m & v & s & s' & Hm & Hv & E).
    destruct (wp_inv _ _ _ _ (genMatpair_wp e' W32 m v s Hm Hv) E) as (Wa & Wb & [I1 I2] & _). simpl.
    refine (conj (conj _ _) (conj _ _)).
    - apply wfM_shape; auto.
    - exists (mbit W32 b). split; auto.
    - apply wfM_shape; auto.
    - exists (mbit W32 a). split; auto. }
  split; apply C66_fail_main; try (rewrite map_length; auto); apply Forall_forall; intros m Hm;
    apply in_map_iff in Hm as (p & <- & Hp); apply X; auto.
Qed.
(** C66: 38 copies of the identity matrix meet the hypotheses; with matrices of rank 1 in their
    place the counts are others. *)
Example C66_ex_main :
  let idm := map (fun i => [2 ^ N.of_nat (31 - i)]%N) (seq 0 32) in
  Forall (fun m => shapeM W32 m /\ invertible 32 (mbit W32 m)) (repeat idm 38) /\ length (repeat idm 38) = 38 /\
  rank_counts 32 32 (read_bits true (file_bytes LE (repeat (map (fun _ => [1]%N) (seq 0 32)) 38))) = Ok (0, 0, 38).
Proof.
  cbv zeta. refine (conj _ (conj _ _)).
  - apply Forall_forall. intros m Hm. apply repeat_spec in Hm as ->. split.
    + split; [reflexivity|]. apply Forall_forall. intros r Hr. apply in_map_iff in Hr as (i & <- & _). reflexivity.
    + exists fid. assert (E : feq 32 (mbit W32 (map (fun i => [2 ^ N.of_nat (31 - i)]%N) (seq 0 32))) fid).
      { assert (X : forallb (fun i => forallb (fun j => Bool.eqb (mbit W32 (map (fun i => [2 ^ N.of_nat (31 - i)]%N) (seq 0 32)) i j) (fid i j))
          (seq 0 32)) (seq 0 32) = true) by (vm_compute; reflexivity).
        intros i j Hi Hj. rewrite forallb_forall in X. specialize (X i ltac:(apply in_seq; lia)).
        rewrite forallb_forall in X. specialize (X j ltac:(apply in_seq; lia)). apply eqb_prop in X. exact X. }
      rewrite E. split; apply fmul_id_l.
  - apply repeat_length.
  - vm_compute. reflexivity.
Qed.
