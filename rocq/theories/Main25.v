(** C108 to C113: the matrix inversions under test/github2 to github7, with exact rational numbers. *)
From Coq Require Import Arith ZArith QArith Qcanon List Bool Lia.
From Verif Require Import Base ModelSM4 WBSM4 SpecQ ModelInv Lap Inv0 Inv4 Inv7 Inv23 Inv6 Inv5 InvGf2 InvEx.
Import ListNotations.
Open Scope nat_scope.

(** C108: github4, Gauss elimination of the augmented matrix.  If no division by zero happens the left half
    ends as the identity and the right half is the inverse of what the left half was, on both sides. *)
Lemma C108_inverse_main : forall n a a1 a2, dims2 n (2 * n) a ->
  g4_augment n a = Ok a1 -> g4_run n a1 = Ok a2 ->
  dims2 n (2 * n) a2 /\ qeq n (ent a2) qid /\ qinverse n (ent a) (fun i j => ent a2 i (n + j)).
Proof. exact g4_correct. Qed.
(** a singular matrix always ends in a division by zero *)
Lemma C108_singular_main : forall n a, dims2 n (2 * n) a -> ~ qinvertible n (ent a) ->
  exists a1, g4_augment n a = Ok a1 /\ g4_run n a1 = UB.
Proof.
  intros n a D H. destruct (g4_augment_total n a D) as (a1 & E1). exists a1. split; auto.
  destruct (g4_run n a1) as [a2|] eqn:E2; auto. destruct H. destruct (g4_correct n a a1 a2 D E1 E2) as (_ & _ & I). eexists. exact I.
Qed.
(** running it again on the result, as the benchmark does, changes nothing: only the first of the
    repeated runs inverts anything *)
Lemma C108_again_main : forall n a a1 a2, dims2 n (2 * n) a ->
  g4_augment n a = Ok a1 -> g4_run n a1 = Ok a2 -> g4_run n a2 = Ok a2.
Proof.
  intros n a a1 a2 D E1 E2. destruct (g4_correct n a a1 a2 D E1 E2) as (D2 & I2 & _). apply g4_again; auto.
Qed.
(** findPivo compares without absolute values, so there are invertible matrices that are not inverted *)
Lemma C108_pivot_refuted_main : exists n a, dims2 n (2 * n) a /\ qinvertible n (ent a) /\
  exists a1, g4_augment n a = Ok a1 /\ g4_run n a1 = UB.
Proof.
  exists 2, (aug 2 [[0; 1]; [-1; 0]]%Z).
  assert (S : sq 2 [[0; 1]; [-1; 0]]%Z) by (split; [reflexivity|repeat constructor]).
  split; [apply aug_dims; exact S|]. split.
  - apply qdet_invertible. rewrite qdet_2, !(aug_ent 2) by (auto; lia). vm_compute. discriminate.
  - eexists. split; vm_compute; reflexivity.
Qed.
(** ... among them matrices of zeros and ones *)
Lemma C108_bits_refuted_main : exists n l, sq n l /\ (forall r, In r l -> Forall (fun x => x = 0%Z \/ x = 1%Z) r) /\
  qinvertible n (qrows l) /\ exists a1, g4_augment n (aug n l) = Ok a1 /\ g4_run n a1 = UB.
Proof.
  exists 3, [[1; 1; 0]; [1; 1; 1]; [1; 0; 0]]%Z. split; [split; [reflexivity|repeat constructor]|]. split.
  - intros r [<-|[<-|[<-|[]]]]; repeat (apply Forall_cons; [auto|]); apply Forall_nil.
  - split; [apply left2b_ok with (B := [[0; 0; 1]; [1; 0; 1]; [1; 1; 0]]%Z); vm_compute; reflexivity|].
    eexists. split; vm_compute; reflexivity.
Qed.
(** the benchmark's 8 by 8 matrix is inverted *)
Definition is_ok {A} (c : res A) : bool := match c with Ok _ => true | UB => false end.
Example C108_ex_main : dims2 8 16 (aug 8 a8) /\ qinvertible 8 (qrows a8) /\
  exists a1 a2, g4_augment 8 (aug 8 a8) = Ok a1 /\ g4_run 8 a1 = Ok a2.
Proof.
  split; [apply (aug_dims 8); exact sq8|]. split; [exact a8_inv|].
  assert (H : is_ok (a1 <- g4_augment 8 (aug 8 a8) ;; g4_run 8 a1) = true) by (vm_compute; reflexivity).
  destruct (g4_augment 8 (aug 8 a8)) as [a1|]; [|discriminate H]. cbn [bind] in H.
  destruct (g4_run 8 a1) as [a2|] eqn:E; [|discriminate H]. eauto.
Qed.

(** C109: github7, elimination with a pivot from the whole remaining square.  If no division by zero happens
    the result is the inverse on both sides, and the matrix passed has become the identity. *)
Lemma C109_inverse_main : forall n m m' r', dims2 n n m -> g7_reverse n m = Ok (m', r') ->
  dims2 n n m' /\ dims2 n n r' /\ qeq n (ent m') qid /\ qinverse n (ent m) (ent r').
Proof. exact g7_correct. Qed.
Lemma C109_singular_main : forall n m, dims2 n n m -> ~ qinvertible n (ent m) -> g7_reverse n m = UB.
Proof.
  intros n m D H. destruct (g7_reverse n m) as [[m' r']|] eqn:E; auto. destruct H.
  destruct (g7_correct n m m' r' D E) as (_ & _ & _ & I). eexists. exact I.
Qed.
(** the caller's matrix is destroyed, so from the second of the benchmark's calls on the result is the identity *)
Lemma C109_repeat_main : forall k n m m' r', dims2 n n m -> g7_repeat (S (S k)) n m = Ok (m', r') -> qeq n (ent r') qid.
Proof. exact g7_repeat_identity. Qed.
(** columns are "swapped" by swapping rows: an invertible matrix that is not inverted *)
Lemma C109_columns_refuted_main : exists n m, dims2 n n m /\ qinvertible n (ent m) /\ g7_reverse n m = UB.
Proof.
  exists 2, (rm [[1; 2]; [0; 1]]%Z). split; [apply rm_dims; split; [reflexivity|repeat constructor]|]. split.
  - apply qdet_invertible. rewrite qdet_2, !rm_ent. vm_compute. discriminate.
  - vm_compute. reflexivity.
Qed.
(** pivots are compared after truncation to int: without any column swap *)
Lemma C109_truncation_refuted_main : exists n m, dims2 n n m /\ qinvertible n (ent m) /\ g7_reverse n m = UB /\
  (forall i j, i < n -> j < n -> q_trunc (ent m i j) = 0%Z).
Proof.
  exists 2, [[0%Qc; Q2Qc (1 # 2)]; [Q2Qc (1 # 2); 0%Qc]]. split; [|split; [|split]].
  - split; [reflexivity|]. intros [|[|i]] Hi; try lia; reflexivity.
  - apply qdet_invertible. rewrite qdet_2. vm_compute. discriminate.
  - vm_compute. reflexivity.
  - intros [|[|i]] [|[|j]] Hi Hj; try lia; vm_compute; reflexivity.
Qed.
(** the 32 by 32 matrix of the benchmark itself is invertible, and the function divides by zero on it *)
Lemma C109_benchmark_refuted_main : exists n m, n = 32 /\ m = rm a32 /\ dims2 n n m /\ qinvertible n (ent m) /\ g7_reverse n m = UB.
Proof.
  exists 32, (rm a32). split; auto. split; auto. split; [apply rm_dims; exact sq32|]. split.
  - destruct a32_inv as (B & H1 & H2). exists B. split; intros i j Hi Hj.
    + rewrite <- (H1 i j Hi Hj). apply qmul_ext; auto; [|intros ? ? _ _; reflexivity]. intros ? ? _ _. apply rm_ent.
    + rewrite <- (H2 i j Hi Hj). apply qmul_ext; auto; [intros ? ? _ _; reflexivity|]. intros ? ? _ _. apply rm_ent.
  - vm_compute. reflexivity.
Qed.
Example C109_ex_main : dims2 3 3 (rm [[5; 1; 0]; [1; 4; 1]; [2; 0; 3]]%Z) /\
  exists m' r', g7_reverse 3 (rm [[5; 1; 0]; [1; 4; 1]; [2; 0; 3]]%Z) = Ok (m', r') /\ ent r' 0 0 = Q2Qc (12 # 59).
Proof.
  split; [apply rm_dims; split; [reflexivity|repeat constructor]|].
  assert (H : match g7_reverse 3 (rm [[5; 1; 0]; [1; 4; 1]; [2; 0; 3]]%Z) with
              | Ok (_, r) => Qc_eq_bool (ent r 0 0) (Q2Qc (12 # 59)) | UB => false end = true) by (vm_compute; reflexivity).
  destruct (g7_reverse 3 _) as [[m' r']|]; [|discriminate H]. exists m', r'. split; auto. apply Qc_eq_bool_correct. exact H.
Qed.

(** C110: github2, cofactors.  For 2 <= n <= 100: defined for every matrix; a singular one leaves the result
    unwritten, any other gives its two-sided inverse. *)
Lemma C110_inverse_main : forall n a A, 2 <= n <= 100 -> holds 100 100 n a A ->
  exists d, g2_run n a = Ok d /\
    (~ qinvertible n A -> d = fresh 100 100) /\
    (qinvertible n A -> exists B, holds 100 100 n d B /\ qinverse n A B).
Proof.
  intros n a A Hn H. destruct (g2_run_ok n a A Hn H) as (d & E & H1 & H2). exists d. split; auto. split.
  - intros HN. apply H1. destruct (Qc_eq_dec (qdet n A) 0%Qc); auto. destruct HN. apply qdet_invertible. auto.
  - intros HI. apply H2. apply qdet_invertible. exact HI.
Qed.
Lemma C110_det_main : forall n a A, 1 <= n <= 100 -> holds 100 100 n a A -> g2_det n a = Ok (qdet n A).
Proof.
  intros n a A Hn H. destruct (wp_exists _ _ _ (g2_det_wp n a A Hn H)) as (d & E & ->). exact E.
Qed.
(** a 1 by 1 matrix gives 1, whatever its entry *)
Lemma C110_one_main : forall a A, holds 100 100 1 a A -> A 0 0 <> 0%Qc ->
  exists d, g2_run 1 a = Ok d /\ at2 None d 0 0 = Some 1%Qc.
Proof. exact g2_run_one. Qed.
Lemma C110_one_refuted_main : exists a A d, holds 100 100 1 a A /\ qinvertible 1 A /\ g2_run 1 a = Ok d /\
  forall B, holds 100 100 1 d B -> ~ qinverse 1 A B.
Proof.
  exists (pad 100 [[2]]%Z), (qrows [[2]]%Z).
  assert (H : holds 100 100 1 (pad 100 [[2]]%Z) (qrows [[2]]%Z)).
  { assert (S : sq 1 [[2]]%Z) by (split; [reflexivity|repeat constructor]).
    split; [apply (pad_dims 100 1); auto; lia|]. intros i j Hi Hj. apply (pad_ent 100 1); auto. lia. }
  destruct (g2_run_one _ _ H ltac:(vm_compute; discriminate)) as (d & E & E1). exists d. split; auto. split; [|split; auto].
  - apply qdet_invertible. rewrite qdet_1. vm_compute. discriminate.
  - intros B [_ HB] [I _]. specialize (HB 0 0 ltac:(lia) ltac:(lia)). rewrite E1 in HB. injection HB as HB.
    specialize (I 0 0 ltac:(lia) ltac:(lia)). unfold qmul in I. cbn [qsum] in I. rewrite <- HB in I. vm_compute in I. discriminate I.
Qed.
Example C110_ex_main : holds 100 100 8 (pad 100 a8) (qrows a8) /\ qinvertible 8 (qrows a8).
Proof.
  split; [|exact a8_inv]. split; [apply (pad_dims 100 8); [exact sq8|lia]|].
  intros i j Hi Hj. apply (pad_ent 100 8); auto; [exact sq8|lia].
Qed.

(** C111: github3, cofactors in allocated matrices of any size from 2 *)
Lemma C111_inverse_main : forall n X A, 2 <= n -> mholds n X A ->
  exists o leaked, g3_inver X = Ok (o, leaked) /\
    (~ qinvertible n A -> o = None /\ leaked = 0) /\
    (qinvertible n A -> leaked = n * n - 1 /\ exists t B, o = Some t /\ holds n n n t B /\ qinverse n A B).
Proof.
  intros n X A Hn H. destruct (g3_inver_ok n X A Hn H) as (o & l & E & H1 & H2). exists o, l. split; auto. split.
  - intros HN. apply H1. destruct (Qc_eq_dec (qdet n A) 0%Qc); auto. destruct HN. apply qdet_invertible. auto.
  - intros HI. apply H2. apply qdet_invertible. exact HI.
Qed.
Lemma C111_product_main : forall X Y A B p q r, mn X = p -> mm X = q -> mn Y = q -> mm Y = r ->
  dims2 p q (mM X) -> dims2 q r (mM Y) ->
  (forall i k, i < p -> k < q -> at2 None (mM X) i k = Some (A i k)) ->
  (forall k j, k < q -> j < r -> at2 None (mM Y) k j = Some (B k j)) ->
  exists t, g3_mulmat X Y = Ok (Some (mkM p r t)) /\ dims2 p r t /\
    forall i j, i < p -> j < r -> at2 None t i j = Some (qmul q A B i j).
Proof. exact g3_mulmat_ok. Qed.
Lemma C111_mismatch_main : forall X Y, mm X <> mn Y -> g3_mulmat X Y = Ok None.
Proof. intros X Y H. unfold g3_mulmat. destruct (Nat.eqb_spec (mm X) (mn Y)); [contradiction|reflexivity]. Qed.
(** a 1 by 1 matrix gives 0 *)
Lemma C111_one_refuted_main : exists X A t l, mholds 1 X A /\ qinvertible 1 A /\ g3_inver X = Ok (Some t, l) /\
  at2 None t 0 0 = Some 0%Qc.
Proof.
  exists (mkM 1 1 [[Some (q_of_Z 2)]]), (qrows [[2]]%Z), [[Some 0%Qc]], 0. split; [|split; [|split]].
  - repeat split; cbn; auto; [intros [|i] Hi; auto; lia|]. intros [|i] [|j] Hi Hj; try lia. reflexivity.
  - apply qdet_invertible. rewrite qdet_1. vm_compute. discriminate.
  - assert (H : match g3_inver (mkM 1 1 [[Some (q_of_Z 2)]]) with
                | Ok (Some [[Some x]], l) => Qc_eq_bool x 0%Qc && Nat.eqb l 0 | _ => false end = true) by (vm_compute; reflexivity).
    destruct (g3_inver _) as [[[[|[|[x|] [|]] [|]]|] l]|]; try discriminate H.
    apply andb_true_iff in H. destruct H as [H1 H2]. apply Qc_eq_bool_correct in H1. apply Nat.eqb_eq in H2. subst. reflexivity.
  - reflexivity.
Qed.
Example C111_ex_main : mholds 8 (mkM 8 8 (pad 8 a8)) (qrows a8) /\ qinvertible 8 (qrows a8).
Proof.
  split; [|exact a8_inv]. split; auto. split; auto. split; [apply (pad_dims 8 8); [exact sq8|lia]|].
  intros i j Hi Hj. apply (pad_ent 8 8); auto. exact sq8.
Qed.

(** C112: github6, cofactors of int matrices in flat arrays, order from 2.  A result is the two-sided
    inverse, and (order + 1)! arrays have not been freed; entries 0 and +-1 up to order 12 cannot
    overflow, so then there is a result for every invertible matrix. *)
Lemma C112_inverse_main : forall n a A inp t l, 2 <= n -> zholds (length a) n a A -> length inp = n * n ->
  g6_cofactor a n inp = Ok (t, l) ->
  l = nfact (S n) /\ exists B, fholds n t B /\ qinverse n (qz A) B.
Proof.
  intros n a A inp t l Hn Ha Li E. pose proof (wpu_elim _ _ _ _ _ (g6_cofactor_wpu n a A inp Hn Ha Li) E) as (H1 & _ & H3). auto.
Qed.
Lemma C112_total_main : forall n a A inp, 2 <= n <= 12 -> zholds (length a) n a A -> length inp = n * n ->
  (forall i j, i < n -> j < n -> (-1 <= A i j <= 1)%Z) -> qinvertible n (qz A) ->
  exists t, g6_cofactor a n inp = Ok (t, nfact (S n)).
Proof.
  intros n a A inp Hn Ha Li HA HI. pose proof (g6_cofactor_wpu n a A inp ltac:(lia) Ha Li) as W.
  destruct (g6_cofactor a n inp) as [[t l]|]; [destruct W as (-> & _); eauto|]. destruct W. split.
  - split; [lia|]. intros i j Hi Hj. specialize (HA i j Hi Hj). lia.
  - apply qdet_invertible. exact HI.
Qed.
(** a singular matrix ends in a division by zero, the value is never checked *)
Lemma C112_singular_main : forall n a A inp, 2 <= n -> zholds (length a) n a A -> length inp = n * n ->
  ~ qinvertible n (qz A) -> g6_cofactor a n inp = UB.
Proof.
  intros n a A inp Hn Ha Li HN. pose proof (g6_cofactor_wpu n a A inp Hn Ha Li) as W.
  destruct (g6_cofactor a n inp) as [[t l]|]; auto. destruct W as (_ & H & _). contradiction.
Qed.
(** one call of the benchmark leaves 362880 arrays allocated *)
Lemma C112_benchmark_main : forall inp, length inp = 64 ->
  exists t B, g6_cofactor (flat a8) 8 inp = Ok (t, 362880%N) /\ fholds 8 t B /\ qinverse 8 (qrows a8) B.
Proof.
  intros inp Li. assert (Ha := zholds_len _ _ _ _ (flat_holds 8 a8 sq8)).
  destruct (C112_total_main 8 (flat a8) (rowsz a8) inp ltac:(lia) Ha Li) as (t & E).
  - intros i j Hi Hj.
    assert (G : forallb (fun r => forallb (fun x => ((0 <=? x) && (x <=? 1))%Z) r) a8 = true) by (vm_compute; reflexivity).
    rewrite forallb_forall in G. specialize (G (nth i a8 []) ltac:(apply nth_In; cbn; lia)).
    rewrite forallb_forall in G. specialize (G (nth j (nth i a8 []) 0%Z)).
    assert (J : j < length (nth i a8 [])) by (rewrite (sq_row 8 a8 i sq8 Hi); exact Hj).
    specialize (G (nth_In _ _ J)). unfold rowsz. apply andb_true_iff in G. destruct G as [G1 G2]. apply Z.leb_le in G1, G2. lia.
  - exact a8_inv.
  - destruct (C112_inverse_main 8 (flat a8) (rowsz a8) inp t _ ltac:(lia) Ha Li E) as (_ & B & HB & HI). exists t, B. auto.
Qed.
Lemma C112_one_refuted_main : exists a A inp t l, zholds (length a) 1 a A /\ qinvertible 1 (qz A) /\ length inp = 1 /\
  g6_cofactor a 1 inp = Ok (t, l) /\ nth 0 t None = Some 0%Qc.
Proof.
  exists [Some 1%Z], (fun _ _ => 1%Z), [None], [Some 0%Qc], 1%N. split; [|split; [|split; [reflexivity|split; [|reflexivity]]]].
  - repeat split; auto. intros [|i] [|j] Hi Hj; try lia. reflexivity.
  - apply qdet_invertible. rewrite qdet_1. vm_compute. discriminate.
  - assert (H : match g6_cofactor [Some 1%Z] 1 [None] with
                | Ok ([Some x], l) => Qc_eq_bool x 0%Qc && N.eqb l 1 | _ => false end = true) by (vm_compute; reflexivity).
    destruct (g6_cofactor _ _ _) as [[[|[x|] [|]] l]|]; try discriminate H.
    apply andb_true_iff in H. destruct H as [H1 H2]. apply Qc_eq_bool_correct in H1. apply N.eqb_eq in H2. subst. reflexivity.
Qed.

(** C113: github5, the generator.  If the memory of tempArray is thought of as holding some numbers, a call
    is defined for every n >= 2, without int overflow, and gives entries within +-65535. *)
Lemma C113_range_main : forall s n t, rands s -> 2 <= n -> full n t ->
  exists a, g5_get s n (g5_identity n) t = Ok a /\ dims2 n n a /\
    (forall i j, i < n -> j < n -> (Z.abs (zent a i j) <= 65535)%Z) /\
    (forall i, i < n -> zent a i (n - 1) = if Nat.eqb i (n - 1) then 1%Z else 0%Z).
Proof.
  intros s n t Hs Hn Ht. destruct (g5_get_ok s n t Hs Hn Ht) as (a & E & (D & B & C) & _). exists a. auto.
Qed.
(** two by two the result is invertible *)
Lemma C113_two_main : forall s t, rands s -> full 2 t ->
  exists a, g5_get s 2 (g5_identity 2) t = Ok a /\ qinvertible 2 (qz (zent a)).
Proof.
  intros s t Hs Ht. destruct (g5_get_ok s 2 t Hs (le_n 2) Ht) as (a & E & (D & B & C) & H). exists a. split; auto.
  apply two_invertible; [apply (H eq_refl 0); lia|apply (H eq_refl 1); lia|apply (C 1); lia].
Qed.
(** three by three it need not be *)
Lemma C113_invertible_refuted_main : exists s n t a, rands s /\ 2 <= n /\ full n t /\
  g5_get s n (g5_identity n) t = Ok a /\ ~ qinvertible n (qz (zent a)).
Proof.
  exists stream3, 3, (repeat (Some 0%Z) 3), [[15557; 15497; 0]; [15557; 15497; 0]; [31084; 30976; 1]]%Z.
  split; [|split; [lia|split; [|split]]].
  - intros x. unfold stream3.
    assert (G : forallb (fun z => (0 <=? z)%Z) rand3 = true) by (vm_compute; reflexivity). rewrite forallb_forall in G.
    destruct (Nat.lt_ge_cases x (length rand3)) as [H|H]; [apply Z.leb_le, G, nth_In; auto|rewrite nth_overflow by auto; lia].
  - split; [reflexivity|]. intros [|[|[|k]]] Hk; cbn; try discriminate; lia.
  - vm_compute. reflexivity.
  - rewrite <- qdet_invertible. intros H. apply H. vm_compute. apply Qc_is_canon. reflexivity.
Qed.
(** as the C standard has it, the first comparison reads memory that has not been written *)
Lemma C113_uninitialised_main : forall s n, rands s -> 2 <= n -> (Z.rem (s 0%nat) 1000 <> 0)%Z ->
  g5_get s n (g5_identity n) (repeat None n) = UB.
Proof. exact g5_get_uninit. Qed.
(** one by one: a division by zero *)
Lemma C113_one_main : forall s t, rands s -> (Z.rem (s 0%nat) 1000 <> 0)%Z -> g5_get s 1 (g5_identity 1) t = UB.
Proof. intros s t. apply g5_get_one. Qed.
Example C113_ex_main : rands (fun _ => 3%Z) /\ full 2 [Some 7%Z; Some 9%Z] /\
  g5_get (fun _ => 3%Z) 2 (g5_identity 2) [Some 7%Z; Some 9%Z] = Ok [[1; 0]; [-21; 1]]%Z.
Proof.
  split; [intros x; lia|]. split; [|vm_compute; reflexivity].
  split; [reflexivity|]. intros [|[|k]] Hk; cbn; try discriminate; lia.
Qed.
