(** Theory of the determinant of SpecQ.v: expansion along every row and column, the adjugate,
    and the equivalence of a non-zero determinant with invertibility. *)
From Coq Require Import Arith ZArith QArith Qcanon List Bool Lia.
From Verif Require Import SpecQ.
Import ListNotations.
Open Scope nat_scope.

Lemma qsum_ext : forall n f g, (forall i, i < n -> f i = g i) -> qsum n f = qsum n g.
Proof.
  induction n; intros f g H; cbn [qsum]; auto. rewrite (IHn f g), (H n) by auto. reflexivity.
Qed.
Lemma qsum_0 : forall n, qsum n (fun _ => 0%Qc) = 0%Qc.
Proof. induction n; cbn [qsum]; auto. rewrite IHn. ring. Qed.
Lemma qsum_plus : forall n f g, qsum n (fun i => (f i + g i)%Qc) = (qsum n f + qsum n g)%Qc.
Proof. induction n; intros; cbn [qsum]; [ring|]. rewrite IHn. ring. Qed.
Lemma qsum_scale : forall n c f, qsum n (fun i => (c * f i)%Qc) = (c * qsum n f)%Qc.
Proof. induction n; intros; cbn [qsum]; [ring|]. rewrite IHn. ring. Qed.
Lemma qsum_scale_r : forall n c f, qsum n (fun i => (f i * c)%Qc) = (qsum n f * c)%Qc.
Proof. induction n; intros; cbn [qsum]; [ring|]. rewrite IHn. ring. Qed.
Lemma qsum_opp : forall n f, qsum n (fun i => (- f i)%Qc) = (- qsum n f)%Qc.
Proof. induction n; intros; cbn [qsum]; [ring|]. rewrite IHn. ring. Qed.
Lemma qsum_comm : forall n m (f : nat -> nat -> Qc),
  qsum n (fun i => qsum m (fun j => f i j)) = qsum m (fun j => qsum n (fun i => f i j)).
Proof.
  induction n; intros m f; cbn [qsum]; [rewrite qsum_0; auto|].
  rewrite IHn, <- qsum_plus. reflexivity.
Qed.
Lemma qsum_first : forall n f, qsum (S n) f = (f 0%nat + qsum n (fun i => f (S i)))%Qc.
Proof.
  induction n; intros f; [cbn [qsum]; ring|].
  change (qsum (S (S n)) f) with (qsum (S n) f + f (S n))%Qc. rewrite IHn. cbn [qsum]. ring.
Qed.
Lemma qsum_single : forall n k f, k < n -> (forall i, i < n -> i <> k -> f i = 0%Qc) -> qsum n f = f k.
Proof.
  induction n; intros k f Hk H; [lia|]. cbn [qsum]. destruct (Nat.eq_dec k n) as [->|Hn].
  - rewrite (qsum_ext n f (fun _ => 0%Qc)), qsum_0 by (intros; apply H; lia). ring.
  - rewrite (IHn k f), (H n) by (try intros; auto; lia). ring.
Qed.
(** sums are invariant under the exchange of two neighbours *)
Definition adjx (r i : nat) : nat := if Nat.eqb i r then S r else if Nat.eqb i (S r) then r else i.
Lemma qsum_adjx : forall n r f, S r < n -> qsum n (fun i => f (adjx r i)) = qsum n f.
Proof.
  induction n; intros r f Hr; [lia|]. cbn [qsum]. destruct (Nat.eq_dec (S r) n) as [E|E].
  - subst n. cbn [qsum]. rewrite (qsum_ext r (fun i => f (adjx r i)) f).
    + unfold adjx. rewrite Nat.eqb_refl. destruct (Nat.eqb_spec (S r) r); [lia|].
      rewrite Nat.eqb_refl. ring.
    + intros i Hi. unfold adjx. destruct (Nat.eqb_spec i r); [lia|]. destruct (Nat.eqb_spec i (S r)); [lia|auto].
  - rewrite IHn by lia. f_equal. unfold adjx. destruct (Nat.eqb_spec n r); [lia|].
    destruct (Nat.eqb_spec n (S r)); [lia|auto].
Qed.

Lemma sgn_S : forall i, sgn (S i) = (- sgn i)%Qc.
Proof.
  intros i. unfold sgn. rewrite Nat.even_succ, <- Nat.negb_even. destruct (Nat.even i); cbn [negb]; ring.
Qed.
Lemma sgn_sq : forall i, (sgn i * sgn i)%Qc = 1%Qc.
Proof. intros i. unfold sgn. destruct (Nat.even i); ring. Qed.
Lemma sgn_add : forall i j, sgn (i + j) = (sgn i * sgn j)%Qc.
Proof.
  induction i; intros j; cbn [Nat.add]; [unfold sgn at 2; cbn; ring|]. rewrite !sgn_S, IHi. ring.
Qed.

Lemma skip_0 : forall r, skip 0 r = S r.
Proof. reflexivity. Qed.
Lemma skip_SS : forall i r, skip (S i) (S r) = S (skip i r).
Proof.
  intros i r. unfold skip. destruct (Nat.ltb_spec (S r) (S i)), (Nat.ltb_spec r i); auto; lia.
Qed.
Lemma skip_S0 : forall i, skip (S i) 0 = 0.
Proof. reflexivity. Qed.
Lemma skip_lt : forall i r n, r < n -> skip i r < S n.
Proof. intros i r n H. unfold skip. destruct (Nat.ltb_spec r i); lia. Qed.
Lemma skip_neq : forall i r, skip i r <> i.
Proof. intros i r. unfold skip. destruct (Nat.ltb_spec r i); lia. Qed.
Lemma qminor_eq : forall n A B i j, qeq (S n) A B -> qeq n (qminor A i j) (qminor B i j).
Proof. intros n A B i j H r c Hr Hc. unfold qminor. apply H; apply skip_lt; auto. Qed.
Lemma qdet_ext : forall n A B, qeq n A B -> qdet n A = qdet n B.
Proof.
  induction n; intros A B H; auto. cbn [qdet]. apply qsum_ext. intros i Hi.
  rewrite (H i 0) by lia. rewrite (IHn _ _ (qminor_eq n A B i 0 H)). reflexivity.
Qed.

(** ** The first row and the transposed matrix *)

Lemma qdet_row0 : forall n A,
  qdet (S n) A = qsum (S n) (fun j => (sgn j * A 0%nat j * qdet n (qminor A 0 j))%Qc).
Proof.
  induction n; intros A.
  - cbn [qdet qsum]. reflexivity.
  - transitivity (sgn 0 * A 0%nat 0%nat * qdet (S n) (qminor A 0 0) +
       qsum (S n) (fun i => qsum (S n) (fun j =>
         - (sgn i * sgn j * A (S i) 0%nat * A 0%nat (S j) * qdet n (fun r c => A (S (skip i r)) (S (skip j c)))))))%Qc.
    + change (qdet (S (S n)) A) with
        (qsum (S (S n)) (fun i => (sgn i * A i 0%nat * qdet (S n) (qminor A i 0%nat))%Qc)).
      rewrite qsum_first. f_equal. apply qsum_ext. intros i Hi. rewrite IHn, <- qsum_scale.
      apply qsum_ext. intros j Hj. rewrite sgn_S. change (qminor A (S i) 0 0%nat j) with (A 0%nat (S j)).
      rewrite (qdet_ext n (qminor (qminor A (S i) 0) 0 j) (fun r c => A (S (skip i r)) (S (skip j c)))).
      * ring.
      * intros r c Hr Hc. change (A (skip (S i) (S r)) (S (skip j c)) = A (S (skip i r)) (S (skip j c))).
        rewrite skip_SS. reflexivity.
    + rewrite (qsum_first (S n)). f_equal. rewrite qsum_comm. apply qsum_ext. intros j Hj.
      change (qdet (S n) (qminor A 0 (S j))) with
        (qsum (S n) (fun i => (sgn i * qminor A 0 (S j) i 0%nat * qdet n (qminor (qminor A 0 (S j)) i 0))%Qc)).
      rewrite <- qsum_scale. apply qsum_ext. intros i Hi. rewrite sgn_S.
      change (qminor A 0 (S j) i 0%nat) with (A (S i) 0%nat).
      rewrite (qdet_ext n (qminor (qminor A 0 (S j)) i 0) (fun r c => A (S (skip i r)) (S (skip j c)))).
      * ring.
      * intros r c Hr Hc. change (A (S (skip i r)) (skip (S j) (S c)) = A (S (skip i r)) (S (skip j c))).
        rewrite skip_SS. reflexivity.
Qed.

Definition qtr (A : qmat) : qmat := fun i j => A j i.
Lemma qdet_tr : forall n A, qdet n (qtr A) = qdet n A.
Proof.
  induction n; intros A; auto. rewrite (qdet_row0 n A). cbn [qdet]. apply qsum_ext. intros i Hi.
  unfold qtr at 1. f_equal. rewrite <- IHn. reflexivity.
Qed.

(** ** Exchanging neighbouring rows *)

Definition swapa (r : nat) (A : qmat) : qmat := fun i j => A (adjx r i) j.
Lemma qdet_swapa : forall n r A, S r < n -> qdet n (swapa r A) = (- qdet n A)%Qc.
Proof.
  induction n; intros r A Hr; [lia|]. cbn [qdet].
  rewrite <- qsum_opp.
  rewrite <- (qsum_adjx (S n) r (fun i => (- (sgn i * A i 0%nat * qdet n (qminor A i 0)))%Qc)) by lia.
  apply qsum_ext. intros i Hi. unfold swapa at 1.
  destruct (Nat.eq_dec i r) as [->|H1].
  - unfold adjx. rewrite Nat.eqb_refl. rewrite sgn_S.
    rewrite (qdet_ext n (qminor (swapa r A) r 0) (qminor A (S r) 0)); [ring|].
    intros a c Ha Hc. unfold qminor, swapa. f_equal. unfold adjx, skip.
    destruct (Nat.ltb_spec a r), (Nat.ltb_spec a (S r));
      repeat (match goal with |- context [Nat.eqb ?x ?y] => destruct (Nat.eqb_spec x y) end); lia.
  - destruct (Nat.eq_dec i (S r)) as [->|H2].
    + assert (E : adjx r (S r) = r).
      { unfold adjx. destruct (Nat.eqb_spec (S r) r); [lia|]. rewrite Nat.eqb_refl. auto. }
      rewrite E, sgn_S.
      rewrite (qdet_ext n (qminor (swapa r A) (S r) 0) (qminor A r 0)); [ring|].
      intros a c Ha Hc. unfold qminor, swapa. f_equal. unfold adjx, skip.
      destruct (Nat.ltb_spec a r), (Nat.ltb_spec a (S r));
        repeat (match goal with |- context [Nat.eqb ?x ?y] => destruct (Nat.eqb_spec x y) end); lia.
    + assert (E : adjx r i = i).
      { unfold adjx. destruct (Nat.eqb_spec i r); [lia|]. destruct (Nat.eqb_spec i (S r)); [lia|auto]. }
      rewrite E. destruct (lt_dec i r) as [Hlt|Hge].
      * rewrite (qdet_ext n (qminor (swapa r A) i 0) (swapa (r - 1) (qminor A i 0))).
        -- rewrite IHn by lia. ring.
        -- intros a c Ha Hc. unfold qminor, swapa. f_equal. unfold adjx, skip.
           destruct (Nat.ltb_spec a i);
             repeat (match goal with |- context [Nat.eqb ?x ?y] => destruct (Nat.eqb_spec x y) end); try lia;
             repeat (match goal with |- context [Nat.ltb ?x ?y] => destruct (Nat.ltb_spec x y) end); lia.
      * rewrite (qdet_ext n (qminor (swapa r A) i 0) (swapa r (qminor A i 0))).
        -- rewrite IHn by lia. ring.
        -- intros a c Ha Hc. unfold qminor, swapa. f_equal. unfold adjx, skip.
           destruct (Nat.ltb_spec a i);
             repeat (match goal with |- context [Nat.eqb ?x ?y] => destruct (Nat.eqb_spec x y) end); try lia;
             repeat (match goal with |- context [Nat.ltb ?x ?y] => destruct (Nat.ltb_spec x y) end); lia.
Qed.

(** Expansion along row i *)
Lemma qdet_row : forall n i A, i < S n ->
  qdet (S n) A = qsum (S n) (fun j => (sgn (i + j) * A i j * qdet n (qminor A i j))%Qc).
Proof.
  intros n i. induction i; intros A Hi; [apply qdet_row0|].
  replace (qdet (S n) A) with (- qdet (S n) (swapa i A))%Qc by (rewrite qdet_swapa by lia; ring).
  rewrite IHi by lia. rewrite <- qsum_opp. apply qsum_ext. intros j Hj.
  cbn [Nat.add]. rewrite sgn_S. unfold swapa at 1. unfold adjx at 1. rewrite Nat.eqb_refl.
  rewrite (qdet_ext n (qminor (swapa i A) i j) (qminor A (S i) j)); [ring|].
  intros a c Ha Hc. unfold qminor, swapa. f_equal. unfold adjx, skip.
  destruct (Nat.ltb_spec a i), (Nat.ltb_spec a (S i));
    repeat (match goal with |- context [Nat.eqb ?x ?y] => destruct (Nat.eqb_spec x y) end); lia.
Qed.

Lemma Qc_self_opp : forall x : Qc, x = (- x)%Qc -> x = 0%Qc.
Proof.
  intros x H. assert (H2 : ((1 + 1) * x)%Qc = 0%Qc). { transitivity (x + x)%Qc; [ring|]. rewrite H at 2. ring. }
  apply Qcmult_integral in H2. destruct H2 as [H2|]; auto.
  discriminate H2.
Qed.
(** Two equal rows *)
Lemma qdet_dup_d : forall d n r A, r + S d < n -> (forall j, j < n -> A r j = A (r + S d) j) ->
  qdet n A = 0%Qc.
Proof.
  induction d; intros n r A Hr H.
  - apply Qc_self_opp. rewrite <- (qdet_swapa n r A) by lia. apply qdet_ext. intros i j Hi Hj.
    unfold swapa, adjx. destruct (Nat.eqb_spec i r) as [->|]; [|destruct (Nat.eqb_spec i (S r)) as [->|]; auto].
    + rewrite H by auto. f_equal. lia.
    + rewrite H by auto. f_equal. lia.
  - replace (qdet n A) with (- qdet n (swapa (r + S d) A))%Qc by (rewrite qdet_swapa by lia; ring).
    rewrite (IHd n r); [ring|lia|]. intros j Hj. unfold swapa, adjx.
    destruct (Nat.eqb_spec r (r + S d)); [lia|]. destruct (Nat.eqb_spec r (S (r + S d))); [lia|].
    rewrite Nat.eqb_refl. rewrite H by auto. f_equal. lia.
Qed.
Lemma qdet_dup : forall n r s A, r < n -> s < n -> r <> s -> (forall j, j < n -> A r j = A s j) ->
  qdet n A = 0%Qc.
Proof.
  intros n r s A Hr Hs Hn H. destruct (lt_dec r s) as [L|L].
  - apply (qdet_dup_d (s - r - 1) n r A); [lia|]. intros j Hj. rewrite H by auto. f_equal. lia.
  - apply (qdet_dup_d (r - s - 1) n s A); [lia|]. intros j Hj. rewrite <- H by auto. f_equal. lia.
Qed.

(** ** The adjugate *)

Definition qadj (n : nat) (A : qmat) : qmat := fun i j => (sgn (i + j) * qdet (n - 1) (qminor A j i))%Qc.
Definition rowrep (A : qmat) (r : nat) (v : nat -> Qc) : qmat := fun i j => if Nat.eqb i r then v j else A i j.

Lemma qdet_rowrep : forall n A r v, r < S n ->
  qdet (S n) (rowrep A r v) = qsum (S n) (fun j => (sgn (r + j) * v j * qdet n (qminor A r j))%Qc).
Proof.
  intros n A r v Hr. rewrite (qdet_row n r) by auto. apply qsum_ext. intros j Hj.
  unfold rowrep at 1. rewrite Nat.eqb_refl. f_equal. apply qdet_ext. intros a c Ha Hc.
  unfold qminor, rowrep. destruct (Nat.eqb_spec (skip r a) r) as [E|]; auto. destruct (skip_neq r a E).
Qed.
Lemma qadj_r : forall n A i j, i < n -> j < n ->
  qmul n A (qadj n A) i j = (qdet n A * qid i j)%Qc.
Proof.
  intros n A i j Hi Hj. destruct n as [|n]; [lia|].
  transitivity (qdet (S n) (rowrep A j (A i))).
  - rewrite qdet_rowrep by auto. unfold qmul, qadj. apply qsum_ext. intros k Hk.
    replace (S n - 1) with n by lia. rewrite (Nat.add_comm j k). ring.
  - unfold qid. destruct (Nat.eqb_spec i j) as [->|Hn].
    + rewrite (qdet_ext (S n) (rowrep A j (A j)) A); [ring|]. intros a c Ha Hc. unfold rowrep.
      destruct (Nat.eqb_spec a j) as [->|]; auto.
    + rewrite (qdet_dup (S n) i j); auto; [ring|]. intros k Hk. unfold rowrep.
      destruct (Nat.eqb_spec i j); [lia|]. rewrite Nat.eqb_refl. reflexivity.
Qed.
Lemma qid_sym : forall i j, qid i j = qid j i.
Proof. intros. unfold qid. rewrite Nat.eqb_sym. reflexivity. Qed.
Lemma qadj_tr : forall n A i j, qadj n (qtr A) i j = qadj n A j i.
Proof.
  intros n A i j. unfold qadj. rewrite (Nat.add_comm j i). f_equal.
  rewrite <- (qdet_tr (n - 1) (qminor A i j)). reflexivity.
Qed.
Lemma qadj_l : forall n A i j, i < n -> j < n ->
  qmul n (qadj n A) A i j = (qdet n A * qid i j)%Qc.
Proof.
  intros n A i j Hi Hj. rewrite <- (qdet_tr n A), qid_sym, <- (qadj_r n (qtr A) j i Hj Hi).
  unfold qmul. apply qsum_ext. intros k Hk. rewrite qadj_tr. unfold qtr. ring.
Qed.
Lemma qdet_inverse : forall n A, qdet n A <> 0%Qc ->
  qinverse n A (fun i j => (qadj n A i j / qdet n A)%Qc).
Proof.
  intros n A HD. split; intros i j Hi Hj.
  - transitivity (qmul n A (qadj n A) i j / qdet n A)%Qc.
    + unfold qmul, Qcdiv. rewrite <- qsum_scale_r. apply qsum_ext. intros. ring.
    + rewrite qadj_r by auto. field. auto.
  - transitivity (qmul n (qadj n A) A i j / qdet n A)%Qc.
    + unfold qmul, Qcdiv. rewrite <- qsum_scale_r. apply qsum_ext. intros. ring.
    + rewrite qadj_l by auto. field. auto.
Qed.

(** ** Row operations *)

Lemma qdet_scale_row : forall n A r c, r < n ->
  qdet n (rowrep A r (fun j => (c * A r j)%Qc)) = (c * qdet n A)%Qc.
Proof.
  intros n A r c Hr. destruct n as [|n]; [lia|]. rewrite qdet_rowrep, (qdet_row n r A) by auto.
  rewrite <- qsum_scale. apply qsum_ext. intros. ring.
Qed.
Lemma qdet_add_row : forall n A r s c, r < n -> s < n -> r <> s ->
  qdet n (rowrep A r (fun j => (A r j + c * A s j)%Qc)) = qdet n A.
Proof.
  intros n A r s c Hr Hs Hn. destruct n as [|n]; [lia|].
  transitivity (qdet (S n) A + c * qdet (S n) (rowrep A r (A s)))%Qc.
  - rewrite !qdet_rowrep, (qdet_row n r A) by auto. rewrite <- qsum_scale, <- qsum_plus.
    apply qsum_ext. intros. ring.
  - rewrite (qdet_dup (S n) r s (rowrep A r (A s))); auto; [ring|].
    intros j Hj. unfold rowrep. rewrite Nat.eqb_refl. destruct (Nat.eqb_spec s r); [lia|auto].
Qed.

(** ** Elimination: a matrix without kernel has a non-zero determinant *)

Definition qnull (n : nat) (A : qmat) (x : nat -> Qc) : Prop :=
  forall i, i < n -> qsum n (fun j => (A i j * x j)%Qc) = 0%Qc.
Definition red (n : nat) (A B : qmat) : Prop :=
  (forall x, qnull n B x -> qnull n A x) /\ (qdet n A = 0%Qc -> qdet n B = 0%Qc).
Lemma red_trans : forall n A B C, red n A B -> red n B C -> red n A C.
Proof. intros n A B C [H1 H2] [H3 H4]. split; auto. Qed.
Lemma red_refl : forall n A, red n A A.
Proof. split; auto. Qed.
Lemma red_add : forall n A r s c, r < n -> s < n -> r <> s ->
  red n A (rowrep A r (fun j => (A r j + c * A s j)%Qc)).
Proof.
  intros n A r s c Hr Hs Hn. split.
  - intros x Hx i Hi.
    assert (Hall : forall k, k < n -> k <> r -> qsum n (fun j => (A k j * x j)%Qc) = 0%Qc).
    { intros k Hk Hkr. rewrite <- (Hx k Hk). apply qsum_ext. intros j Hj. unfold rowrep.
      destruct (Nat.eqb_spec k r); [lia|auto]. }
    destruct (Nat.eq_dec i r) as [->|Hir]; [|apply Hall; auto].
    pose proof (Hx r Hr) as H. pose proof (Hall s Hs (not_eq_sym Hn)) as H'.
    transitivity (qsum n (fun j => (rowrep A r (fun j => (A r j + c * A s j)%Qc) r j * x j)%Qc)
                  - c * qsum n (fun j => (A s j * x j)%Qc))%Qc.
    + unfold Qcminus. rewrite <- qsum_scale, <- qsum_opp, <- qsum_plus. apply qsum_ext. intros j Hj.
      unfold rowrep. rewrite Nat.eqb_refl. ring.
    + rewrite H, H'. ring.
  - rewrite qdet_add_row; auto.
Qed.
Lemma red_scale : forall n A r c, r < n -> c <> 0%Qc ->
  red n A (rowrep A r (fun j => (c * A r j)%Qc)).
Proof.
  intros n A r c Hr Hc. split.
  - intros x Hx i Hi. destruct (Nat.eq_dec i r) as [->|Hir].
    + pose proof (Hx r Hr) as H.
      assert (E : (c * qsum n (fun j => (A r j * x j)%Qc))%Qc = 0%Qc).
      { rewrite <- H, <- qsum_scale. apply qsum_ext. intros j Hj. unfold rowrep. rewrite Nat.eqb_refl. ring. }
      apply Qcmult_integral in E. destruct E; [contradiction|auto].
    + rewrite <- (Hx i Hi). apply qsum_ext. intros j Hj. unfold rowrep. destruct (Nat.eqb_spec i r); [lia|auto].
  - intros E. rewrite qdet_scale_row by auto. rewrite E. ring.
Qed.

(** the first k columns are those of the identity *)
Definition idcols (n k : nat) (A : qmat) : Prop := forall i j, i < n -> j < k -> A i j = qid i j.
(** clear column k of the rows 0 .. m-1 but row k *)
Lemma red_clear : forall n k m A, k < n -> m <= n -> idcols n k A -> A k k = 1%Qc ->
  exists B, red n A B /\ idcols n k B /\ B k k = 1%Qc /\
    (forall i, i < n -> m <= i -> B i k = A i k) /\
    (forall i, i < m -> i <> k -> B i k = 0%Qc).
Proof.
  intros n k m. induction m; intros A Hk Hm HI HP.
  - exists A. repeat split; auto; try apply red_refl. intros i Hi; lia.
  - destruct (IHm A Hk ltac:(lia) HI HP) as (B & R & IB & PB & HB1 & HB2).
    destruct (Nat.eq_dec m k) as [->|Hmk].
    + exists B. repeat split; auto; try apply R; [intros; apply HB1; lia|].
      intros i Hi Hik. apply HB2; lia.
    + exists (rowrep B m (fun j => (B m j + (- B m k) * B k j)%Qc)). split; [|split; [|split; [|split]]].
      * apply red_trans with B; auto. apply red_add; auto; lia.
      * intros i j Hi Hj. unfold rowrep. destruct (Nat.eqb_spec i m) as [->|]; [|apply IB; auto].
        rewrite (IB m j), (IB k j) by lia. unfold qid at 2. destruct (Nat.eqb_spec k j); [lia|]. ring.
      * unfold rowrep. destruct (Nat.eqb_spec k m); [lia|auto].
      * intros i Hi Hmi. unfold rowrep. destruct (Nat.eqb_spec i m); [lia|]. apply HB1; lia.
      * intros i Hi Hik. unfold rowrep. destruct (Nat.eqb_spec i m) as [->|]; [rewrite PB; ring|]. apply HB2; lia.
Qed.
Lemma find_pivot : forall (f : nat -> Qc) k n, k <= n ->
  (exists p, k <= p < n /\ f p <> 0%Qc) \/ (forall p, k <= p < n -> f p = 0%Qc).
Proof.
  intros f k n. induction n; intros H; [right; intros; lia|].
  destruct (Nat.eq_dec k (S n)) as [->|]; [right; intros; lia|].
  destruct IHn as [(p & Hp & E)|E]; [lia|left; exists p; split; auto; lia|].
  destruct (Qc_eq_dec (f n) 0%Qc) as [Z|Z]; [|left; exists n; split; auto; lia].
  right. intros p Hp. destruct (Nat.eq_dec p n) as [->|]; auto. apply E. lia.
Qed.
Lemma elim_step : forall n k A, k < n -> idcols n k A ->
  (exists B, red n A B /\ idcols n (S k) B) \/
  (exists x, qnull n A x /\ x k = 1%Qc).
Proof.
  intros n k A Hk HI. destruct (find_pivot (fun i => A i k) k n) as [(p & Hp & E)|E]; [lia| |].
  - left. cbn beta in E.
    assert (H1 : exists B, red n A B /\ idcols n k B /\ B k k <> 0%Qc).
    { destruct (Qc_eq_dec (A k k) 0%Qc) as [Z|Z]; [|exists A; split; [apply red_refl|split; auto]].
      assert (Hpk : p <> k) by (intros ->; contradiction).
      exists (rowrep A k (fun j => (A k j + 1 * A p j)%Qc)). split; [apply red_add; auto; lia|]. split.
      - intros i j Hi Hj. unfold rowrep. destruct (Nat.eqb_spec i k) as [->|]; [|apply HI; auto].
        rewrite (HI k j), (HI p j) by lia. unfold qid at 2. destruct (Nat.eqb_spec p j); [lia|]. ring.
      - unfold rowrep. rewrite Nat.eqb_refl, Z. intros F. apply E. rewrite <- F. ring. }
    destruct H1 as (B & RB & IB & PB).
    assert (Hinv : (/ B k k)%Qc <> 0%Qc).
    { intros F. assert (F' : (/ B k k * B k k)%Qc = 1%Qc) by (field; auto).
      rewrite F in F'. assert (F2 : (0 * B k k)%Qc = 0%Qc) by ring. rewrite F2 in F'. discriminate F'. }
    pose proof (red_scale n B k (/ B k k)%Qc Hk Hinv) as RC. set (C := rowrep B k (fun j => (/ B k k * B k j)%Qc)) in *.
    assert (IC : idcols n k C).
    { intros i j Hi Hj. unfold C, rowrep. destruct (Nat.eqb_spec i k) as [->|]; [|apply IB; auto].
      rewrite (IB k j) by lia. unfold qid. destruct (Nat.eqb_spec k j); [lia|]. ring. }
    assert (PC : C k k = 1%Qc). { unfold C, rowrep. rewrite Nat.eqb_refl. field. auto. }
    destruct (red_clear n k n C Hk (le_n n) IC PC) as (D & RD & ID & PD & _ & HD).
    exists D. split; [apply red_trans with B; auto; apply red_trans with C; auto|].
    intros i j Hi Hj. destruct (Nat.eq_dec j k) as [->|]; [|apply ID; lia].
    unfold qid. destruct (Nat.eqb_spec i k) as [->|Hik]; auto.
  - right. cbn beta in E.
    exists (fun j => if j <? k then (- A j k)%Qc else if Nat.eqb j k then 1%Qc else 0%Qc).
    split; [|destruct (Nat.ltb_spec k k); [lia|]; rewrite Nat.eqb_refl; auto].
    intros i Hi.
    assert (G : forall m, m <= n -> qsum m (fun j => (A i j * (if j <? k then (- A j k)%Qc else if Nat.eqb j k then 1%Qc else 0%Qc))%Qc)
              = ((if (Nat.ltb i k && Nat.ltb i m)%bool then - A i k else 0) + (if k <? m then A i k else 0))%Qc).
    { induction m; intros Hm; cbn [qsum].
      - rewrite andb_false_r. replace (k <? 0) with false by (symmetry; apply Nat.ltb_ge; lia). ring.
      - rewrite IHm by lia. clear IHm.
        destruct (Nat.ltb_spec m k).
        + rewrite (HI i m) by lia. unfold qid.
          replace (k <? m) with false by (symmetry; apply Nat.ltb_ge; lia).
          replace (k <? S m) with false by (symmetry; apply Nat.ltb_ge; lia).
          destruct (Nat.eqb_spec i m) as [->|Him].
          * replace (m <? m) with false by (symmetry; apply Nat.ltb_ge; lia).
            replace (m <? k) with true by (symmetry; apply Nat.ltb_lt; lia).
            replace (m <? S m) with true by (symmetry; apply Nat.ltb_lt; lia). cbn [andb]. ring.
          * replace (i <? S m) with (i <? m); [ring|].
            destruct (Nat.ltb_spec i m), (Nat.ltb_spec i (S m)); auto; lia.
        + replace (k <? S m) with true by (symmetry; apply Nat.ltb_lt; lia).
          assert (E2 : (Nat.ltb i k && Nat.ltb i (S m))%bool = (Nat.ltb i k && Nat.ltb i m)%bool).
          { destruct (Nat.ltb_spec i k); auto. destruct (Nat.ltb_spec i m), (Nat.ltb_spec i (S m)); auto; lia. }
          rewrite E2. destruct (Nat.eqb_spec m k) as [->|].
          * replace (k <? k) with false by (symmetry; apply Nat.ltb_ge; lia). ring.
          * replace (k <? m) with true by (symmetry; apply Nat.ltb_lt; lia). ring. }
    rewrite G by lia. replace (k <? n) with true by (symmetry; apply Nat.ltb_lt; lia).
    replace (i <? n) with true by (symmetry; apply Nat.ltb_lt; lia). rewrite andb_true_r.
    destruct (Nat.ltb_spec i k); [ring|]. rewrite E by lia. ring.
Qed.
Lemma elim : forall n A k, k <= n ->
  (exists B, red n A B /\ idcols n k B) \/ (exists x c, c < n /\ qnull n A x /\ x c = 1%Qc).
Proof.
  intros n A k. induction k; intros Hk.
  - left. exists A. split; [apply red_refl|]. intros i j Hi Hj; lia.
  - destruct (IHk ltac:(lia)) as [(B & RB & IB)|H]; [|auto].
    destruct (elim_step n k B ltac:(lia) IB) as [(C & RC & IC)|(x & Hx & Hc)].
    + left. exists C. split; auto. apply red_trans with B; auto.
    + right. exists x, k. split; [lia|]. split; auto. apply RB. auto.
Qed.
Lemma qdet_id : forall n, qdet n qid = 1%Qc.
Proof.
  induction n; auto. cbn [qdet]. rewrite (qsum_single (S n) 0).
  - rewrite (qdet_ext n (qminor qid 0 0) qid); [rewrite IHn; unfold sgn, qid; cbn; ring|].
    intros i j Hi Hj. reflexivity.
  - lia.
  - intros i Hi H0. unfold qid at 1. destruct (Nat.eqb_spec i 0); [lia|]. ring.
Qed.
Lemma nokernel_det : forall n A, (forall x, qnull n A x -> forall c, c < n -> x c = 0%Qc) -> qdet n A <> 0%Qc.
Proof.
  intros n A H. destruct (elim n A n (le_n n)) as [(B & [_ RB] & IB)|(x & c & Hc & Hx & E)].
  - intros Z. apply RB in Z. rewrite (qdet_ext n B qid), qdet_id in Z; [discriminate Z|].
    intros i j Hi Hj. apply IB; auto.
  - rewrite (H x Hx c Hc) in E. discriminate E.
Qed.
Lemma qmul_assoc_v : forall n A B x i,
  qsum n (fun j => (qmul n B A i j * x j)%Qc) = qsum n (fun k => (B i k * qsum n (fun j => (A k j * x j)%Qc))%Qc).
Proof.
  intros n A B x i. unfold qmul.
  transitivity (qsum n (fun j => qsum n (fun k => (B i k * (A k j * x j))%Qc))).
  - apply qsum_ext. intros j Hj. rewrite <- qsum_scale_r. apply qsum_ext. intros. ring.
  - rewrite qsum_comm. apply qsum_ext. intros k Hk. rewrite qsum_scale. reflexivity.
Qed.
Lemma left_inverse_det : forall n A B, qeq n (qmul n B A) qid -> qdet n A <> 0%Qc.
Proof.
  intros n A B H. apply nokernel_det. intros x Hx c Hc.
  transitivity (qsum n (fun j => (qmul n B A c j * x j)%Qc)).
  - rewrite (qsum_single n c); auto.
    + rewrite H by auto. unfold qid. rewrite Nat.eqb_refl. ring.
    + intros i Hi Hn. rewrite H by auto. unfold qid. destruct (Nat.eqb_spec c i); [lia|]. ring.
  - rewrite qmul_assoc_v. rewrite (qsum_ext n _ (fun _ => 0%Qc)); [apply qsum_0|].
    intros k Hk. rewrite Hx by auto. ring.
Qed.
Theorem qdet_invertible : forall n A, qdet n A <> 0%Qc <-> qinvertible n A.
Proof.
  intros n A. split.
  - intros H. eexists. apply qdet_inverse. exact H.
  - intros (B & _ & H). apply (left_inverse_det n A B H).
Qed.

(** ** Inverses are unique *)
Lemma qmul_assoc : forall n A B C i j, qmul n (qmul n A B) C i j = qmul n A (qmul n B C) i j.
Proof.
  intros n A B C i j. unfold qmul.
  transitivity (qsum n (fun k => qsum n (fun l => (A i l * (B l k * C k j))%Qc))).
  - apply qsum_ext. intros k Hk. rewrite <- qsum_scale_r. apply qsum_ext. intros. ring.
  - rewrite qsum_comm. apply qsum_ext. intros k Hk. rewrite qsum_scale. reflexivity.
Qed.
Lemma qmul_id_l : forall n A i j, i < n -> qmul n qid A i j = A i j.
Proof.
  intros n A i j Hi. unfold qmul. rewrite (qsum_single n i); auto.
  - unfold qid. rewrite Nat.eqb_refl. ring.
  - intros k Hk Hn. unfold qid. destruct (Nat.eqb_spec i k); [lia|]. ring.
Qed.
Lemma qmul_id_r : forall n A i j, j < n -> qmul n A qid i j = A i j.
Proof.
  intros n A i j Hj. unfold qmul. rewrite (qsum_single n j); auto.
  - unfold qid. rewrite Nat.eqb_refl. ring.
  - intros k Hk Hn. unfold qid. destruct (Nat.eqb_spec k j); [lia|]. ring.
Qed.
Lemma qmul_ext : forall n A A' B B', qeq n A A' -> qeq n B B' -> qeq n (qmul n A B) (qmul n A' B').
Proof.
  intros n A A' B B' HA HB i j Hi Hj. unfold qmul. apply qsum_ext. intros k Hk.
  rewrite HA, HB by auto. reflexivity.
Qed.
Lemma qinverse_unique : forall n A B C, qinverse n A B -> qinverse n A C -> qeq n B C.
Proof.
  intros n A B C [B1 B2] [C1 C2] i j Hi Hj.
  rewrite <- (qmul_id_l n C i j Hi), <- (qmul_id_r n B i j Hj).
  transitivity (qmul n B (qmul n A C) i j).
  - apply qmul_ext; auto; intros a b Ha Hb; [reflexivity|symmetry; auto].
  - rewrite <- qmul_assoc. apply qmul_ext; auto. intros a b Ha Hb. reflexivity.
Qed.
Lemma right_inverse_det : forall n A B, qeq n (qmul n A B) qid -> qdet n A <> 0%Qc.
Proof.
  intros n A B H. rewrite <- (qdet_tr n A). apply (left_inverse_det n (qtr A) (qtr B)).
  intros i j Hi Hj. rewrite qid_sym, <- (H j i Hj Hi). unfold qmul, qtr. apply qsum_ext. intros. ring.
Qed.
(** a one-sided inverse is the inverse *)
Lemma right_inverse : forall n A B, qeq n (qmul n A B) qid -> qinverse n A B.
Proof.
  intros n A B H. pose proof (right_inverse_det n A B H) as HD. apply qdet_inverse in HD.
  set (C := fun i j => (qadj n A i j / qdet n A)%Qc) in *. destruct HD as [C1 C2].
  assert (E : qeq n B C).
  { intros i j Hi Hj. rewrite <- (qmul_id_l n B i j Hi), <- (qmul_id_r n C i j Hj).
    transitivity (qmul n (qmul n C A) B i j).
    - apply qmul_ext; auto; intros a b Ha Hb; [symmetry; auto|reflexivity].
    - rewrite qmul_assoc. apply qmul_ext; auto. intros a b Ha Hb. reflexivity. }
  split; auto. intros i j Hi Hj. rewrite <- (C2 i j Hi Hj). apply qmul_ext; auto.
  intros a b Ha Hb. reflexivity.
Qed.
