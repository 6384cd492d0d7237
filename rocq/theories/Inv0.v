(** Reasoning about computations that may stop (division by zero, overflow): [wpu P c Q] says
    that c gives a result with Q, or stops and P holds. *)
From Coq Require Import Arith ZArith QArith Qcanon List Bool Lia.
From Verif Require Import Base ModelSM4 WBSM4 SpecQ ModelInv Lap.
Import ListNotations.
Open Scope nat_scope.

Definition wpu {A} (P : Prop) (c : res A) (Q : A -> Prop) : Prop :=
  match c with Ok a => Q a | UB => P end.

Lemma wpu_bind : forall A B P (c : res A) (k : A -> res B) (Q : B -> Prop),
  wpu P c (fun a => wpu P (k a) Q) -> wpu P (bind c k) Q.
Proof. intros A B P [a|] k Q H; exact H. Qed.
Lemma wpu_mono : forall A (P P' : Prop) (c : res A) (Q Q' : A -> Prop),
  wpu P c Q -> (P -> P') -> (forall a, Q a -> Q' a) -> wpu P' c Q'.
Proof. intros A P P' [a|] Q Q' H H1 H2; cbn in *; auto. Qed.
Lemma wpu_wp : forall A P (c : res A) (Q : A -> Prop), wp c Q -> wpu P c Q.
Proof. intros A P [a|] Q H; [exact H|destruct H]. Qed.
Lemma wpu_elim : forall A P (c : res A) (Q : A -> Prop) a, wpu P c Q -> c = Ok a -> Q a.
Proof. intros A P c Q a H ->. exact H. Qed.
Lemma wpu_false : forall A (c : res A) (Q : A -> Prop), wpu False c Q -> wp c Q.
Proof. intros A [a|] Q H; [exact H|destruct H]. Qed.
Lemma wpu_up_n : forall St P (I : nat -> St -> Prop) body (Q : St -> Prop) k a s,
  I a s ->
  (forall i x, a <= i -> i < a + k -> I i x -> wpu P (body i x) (I (S i))) ->
  (forall x, I (a + k) x -> Q x) ->
  wpu P (up_n k a body s) Q.
Proof.
  intros St P I body Q k; induction k as [|k IH]; intros a s H0 Hs HQ; cbn [up_n].
  - apply HQ. rewrite Nat.add_0_r. exact H0.
  - apply wpu_bind. apply wpu_mono with (P := P) (Q := I (S a)); auto.
    + apply Hs; auto; lia.
    + intros s' Hs'. apply IH; auto.
      * intros i x Hi1 Hi2. apply Hs; lia.
      * intros x Hx. apply HQ. rewrite Nat.add_succ_r. exact Hx.
Qed.
Lemma wpu_for_up : forall St P (I : nat -> St -> Prop) body (Q : St -> Prop) a b s,
  a <= b -> I a s ->
  (forall i x, a <= i -> i < b -> I i x -> wpu P (body i x) (I (S i))) ->
  (forall x, I b x -> Q x) ->
  wpu P (for_up a b body s) Q.
Proof.
  intros St P I body Q a b s Hab H0 Hs HQ. unfold for_up.
  apply wpu_up_n with (I := I); auto.
  - intros i x Hi1 Hi2. apply Hs; lia.
  - replace (a + (b - a)) with b by lia. exact HQ.
Qed.
Lemma wpu_down_n : forall St P (I : nat -> St -> Prop) body (Q : St -> Prop) k lo s,
  I (lo + k) s ->
  (forall i x, lo <= i -> i < lo + k -> I (S i) x -> wpu P (body i x) (I i)) ->
  (forall x, I lo x -> Q x) ->
  wpu P (down_n k lo body s) Q.
Proof.
  intros St P I body Q k; induction k as [|k IH]; intros lo s H0 Hs HQ; cbn [down_n].
  - apply HQ. rewrite Nat.add_0_r in H0. exact H0.
  - apply wpu_bind. apply wpu_mono with (P := P) (Q := I (lo + k)); auto.
    + apply Hs; try lia. rewrite Nat.add_succ_r in H0. exact H0.
    + intros s' Hs'. apply IH; auto. intros i x Hi1 Hi2. apply Hs; lia.
Qed.
Lemma wpu_for_down : forall St P (I : nat -> St -> Prop) body (Q : St -> Prop) hi lo s,
  lo <= hi -> I hi s ->
  (forall i x, lo <= i -> i < hi -> I (S i) x -> wpu P (body i x) (I i)) ->
  (forall x, I lo x -> Q x) ->
  wpu P (for_down hi lo body s) Q.
Proof.
  intros St P I body Q hi lo s Hab H0 Hs HQ. unfold for_down.
  apply wpu_down_n with (I := I); auto.
  - replace (lo + (hi - lo)) with hi by lia. exact H0.
  - intros i x Hi1 Hi2. apply Hs; lia.
Qed.
Lemma wpu_get2 : forall A (d : A) P n m t i j (Q : A -> Prop), dims2 n m t -> i < n -> j < m ->
  Q (at2 d t i j) -> wpu P (get2 t i j) Q.
Proof. intros. apply wpu_wp. apply wp_get2 with (d := d) (n := n) (m := m); auto. Qed.
Lemma wpu_set2 : forall A (d : A) P n m t i j x (Q : list (list A) -> Prop), dims2 n m t -> i < n -> j < m ->
  (forall t', dims2 n m t' ->
     (forall i' j', at2 d t' i' j' = if (Nat.eqb i' i && Nat.eqb j' j)%bool then x else at2 d t i' j') -> Q t') ->
  wpu P (set2 t i j x) Q.
Proof. intros. apply wpu_wp. apply wp_set2 with (d := d) (n := n) (m := m); auto. Qed.
Lemma wpu_qdiv : forall (P : Prop) x y (Q : Qc -> Prop), (y = 0%Qc -> P) -> (y <> 0%Qc -> Q (x / y)%Qc) -> wpu P (qdiv x y) Q.
Proof. intros P x y Q H1 H2. unfold qdiv. destruct (Qc_eq_dec y 0%Qc); cbn; auto. Qed.

(** entry i j of a matrix *)
Definition ent (a : rmatrix) : qmat := fun i j => at2 0%Qc a i j.

(** a is determined by its entries *)
Lemma ent_ext : forall n m a b, dims2 n m a -> dims2 n m b ->
  (forall i j, i < n -> j < m -> ent a i j = ent b i j) -> a = b.
Proof.
  intros n m a b [La Ha] [Lb Hb] H. apply (list_ext _ []); [lia|]. intros i Hi.
  apply (list_ext _ 0%Qc); [rewrite Ha, Hb by lia; auto|]. intros j Hj. rewrite Ha in Hj by lia.
  apply (H i j); lia.
Qed.

(** Row operations keep the relation R * A0 = M *)
Lemma left_inverse_sym : forall n A B, qeq n (qmul n B A) qid -> qinverse n A B.
Proof. intros n A B H. apply right_inverse in H. destruct H as [H1 H2]. split; auto. Qed.
