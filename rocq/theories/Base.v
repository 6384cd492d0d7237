(** Outcomes, arrays and loops used by the model of the C code.

    [UB] is undefined behaviour of the C abstract machine: an access outside an
    array, a remainder by zero, a bad printf argument.  It is absorbing. *)
From Coq Require Import Arith NArith List Bool Lia.
Import ListNotations.

Inductive res (A : Type) : Type :=
| Ok (a : A)
| UB.
Arguments Ok {A} a.
Arguments UB {A}.

Definition bind {A B} (c : res A) (k : A -> res B) : res B :=
  match c with Ok a => k a | UB => UB end.

Declare Scope res_scope.
Delimit Scope res_scope with res.
Notation "x <- c ;; k" := (bind c (fun x => k))
  (at level 61, c at next level, right associativity) : res_scope.
Notation "' p <- c ;; k" := (bind c (fun x => match x with p => k end))
  (at level 61, p pattern, c at next level, right associativity) : res_scope.
Open Scope res_scope.

(** ** Arrays: [a[i]] and [a[i] = x] *)

Definition aget {A} (l : list A) (i : nat) : res A :=
  match nth_error l i with Some x => Ok x | None => UB end.

Fixpoint upd {A} (l : list A) (i : nat) (x : A) : list A :=
  match l, i with
  | [], _ => []
  | _ :: t, O => x :: t
  | h :: t, S i' => h :: upd t i' x
  end.

Definition aset {A} (l : list A) (i : nat) (x : A) : res (list A) :=
  if Nat.ltb i (length l) then Ok (upd l i x) else UB.

(** ** Loops *)

Fixpoint up_n {St} (k a : nat) (body : nat -> St -> res St) (s : St) : res St :=
  match k with
  | O => Ok s
  | S k' => s' <- body a s ;; up_n k' (S a) body s'
  end.
(** for (i = a; i < b; i++) body *)
Definition for_up {St} (a b : nat) (body : nat -> St -> res St) (s : St) : res St :=
  up_n (b - a) a body s.

Fixpoint down_n {St} (k lo : nat) (body : nat -> St -> res St) (s : St) : res St :=
  match k with
  | O => Ok s
  | S k' => s' <- body (lo + k') s ;; down_n k' lo body s'
  end.
(** for (i = hi - 1; i >= lo; i--) body *)
Definition for_down {St} (hi lo : nat) (body : nat -> St -> res St) (s : St) : res St :=
  down_n (hi - lo) lo body s.

Fixpoint upret_n {St R} (k a : nat) (body : nat -> St -> res (St + R)) (s : St)
  : res (St + R) :=
  match k with
  | O => Ok (inl s)
  | S k' =>
      x <- body a s ;;
      match x with
      | inl s' => upret_n k' (S a) body s'
      | inr r => Ok (inr r)
      end
  end.
(** for (i = a; i < b; i++) body, where body may execute [return r] ([inr r]) *)
Definition for_ret {St R} (a b : nat) (body : nat -> St -> res (St + R)) (s : St)
  : res (St + R) := upret_n (b - a) a body s.

Fixpoint find_n (k a : nat) (test : nat -> res bool) : res (option nat) :=
  match k with
  | O => Ok None
  | S k' => t <- test a ;; if t then Ok (Some a) else find_n k' (S a) test
  end.
(** for (j = a; j < b; j++) if (test j) { ...; break; } : the [j] that reaches
    the body, if any *)
Definition find_up (a b : nat) (test : nat -> res bool) : res (option nat) :=
  find_n (b - a) a test.

(** ** Reasoning: weakest preconditions (UB is excluded) *)

Definition wp {A} (c : res A) (Q : A -> Prop) : Prop :=
  match c with Ok a => Q a | UB => False end.

Lemma wp_ok : forall A (a : A) (Q : A -> Prop), Q a -> wp (Ok a) Q.
Proof. intros; exact H. Qed.

Lemma wp_bind : forall A B (c : res A) (k : A -> res B) (Q : B -> Prop),
  wp c (fun a => wp (k a) Q) -> wp (bind c k) Q.
Proof. intros A B [a|] k Q H; simpl in *; auto. Qed.

Lemma wp_mono : forall A (c : res A) (P Q : A -> Prop),
  wp c P -> (forall a, P a -> Q a) -> wp c Q.
Proof. intros A [a|] P Q H HPQ; simpl in *; auto. Qed.

Lemma wp_exists : forall A (c : res A) (Q : A -> Prop),
  wp c Q -> exists a, c = Ok a /\ Q a.
Proof. intros A [a|] Q H; simpl in H; [ eauto | contradiction ]. Qed.

Lemma wp_inv : forall A (c : res A) (Q : A -> Prop) a, wp c Q -> c = Ok a -> Q a.
Proof. intros A c Q a H ->; exact H. Qed.

Lemma wp_conj : forall A (c : res A) (P Q : A -> Prop),
  wp c P -> wp c Q -> wp c (fun a => P a /\ Q a).
Proof. intros A [a|] P Q H1 H2; simpl in *; auto. Qed.

Lemma wp_of_eq : forall A (c : res A) (Q : A -> Prop) a, c = Ok a -> Q a -> wp c Q.
Proof. intros A c Q a -> H; exact H. Qed.

Lemma wp_up_n : forall St (I : nat -> St -> Prop) body (Q : St -> Prop) k a s,
  I a s ->
  (forall i x, a <= i -> i < a + k -> I i x -> wp (body i x) (I (S i))) ->
  (forall x, I (a + k) x -> Q x) ->
  wp (up_n k a body s) Q.
Proof.
  intros St I body Q k; induction k as [|k IH]; intros a s H0 Hs HQ; simpl.
  - apply HQ. rewrite Nat.add_0_r. exact H0.
  - apply wp_bind. apply wp_mono with (P := I (S a)).
    + apply Hs; auto; lia.
    + intros s' Hs'. apply IH; auto.
      * intros i x Hi1 Hi2. apply Hs; lia.
      * intros x Hx. apply HQ. rewrite Nat.add_succ_r. exact Hx.
Qed.

Lemma wp_for_up : forall St (I : nat -> St -> Prop) body (Q : St -> Prop) a b s,
  a <= b ->
  I a s ->
  (forall i x, a <= i -> i < b -> I i x -> wp (body i x) (I (S i))) ->
  (forall x, I b x -> Q x) ->
  wp (for_up a b body s) Q.
Proof.
  intros St I body Q a b s Hab H0 Hs HQ. unfold for_up.
  apply wp_up_n with (I := I); auto.
  - intros i x Hi1 Hi2. apply Hs; lia.
  - replace (a + (b - a)) with b by lia. exact HQ.
Qed.

Lemma wp_down_n : forall St (I : nat -> St -> Prop) body (Q : St -> Prop) k lo s,
  I (lo + k) s ->
  (forall i x, lo <= i -> i < lo + k -> I (S i) x -> wp (body i x) (I i)) ->
  (forall x, I lo x -> Q x) ->
  wp (down_n k lo body s) Q.
Proof.
  intros St I body Q k; induction k as [|k IH]; intros lo s H0 Hs HQ; simpl.
  - apply HQ. rewrite Nat.add_0_r in H0. exact H0.
  - apply wp_bind. apply wp_mono with (P := I (lo + k)).
    + apply Hs; try lia. rewrite Nat.add_succ_r in H0. exact H0.
    + intros s' Hs'. apply IH; auto.
      intros i x Hi1 Hi2. apply Hs; lia.
Qed.

Lemma wp_for_down : forall St (I : nat -> St -> Prop) body (Q : St -> Prop) hi lo s,
  lo <= hi ->
  I hi s ->
  (forall i x, lo <= i -> i < hi -> I (S i) x -> wp (body i x) (I i)) ->
  (forall x, I lo x -> Q x) ->
  wp (for_down hi lo body s) Q.
Proof.
  intros St I body Q hi lo s Hab H0 Hs HQ. unfold for_down.
  apply wp_down_n with (I := I); auto.
  - replace (lo + (hi - lo)) with hi by lia. exact H0.
  - intros i x Hi1 Hi2. apply Hs; lia.
Qed.

Lemma wp_upret_n : forall St R (I : nat -> St -> Prop) body (Q : St + R -> Prop) k a s,
  I a s ->
  (forall i x, a <= i -> i < a + k -> I i x ->
     wp (body i x) (fun y => match y with inl x' => I (S i) x' | inr r => Q (inr r) end)) ->
  (forall x, I (a + k) x -> Q (inl x)) ->
  wp (upret_n k a body s) Q.
Proof.
  intros St R I body Q k; induction k as [|k IH]; intros a s H0 Hs HQ; simpl.
  - apply HQ. rewrite Nat.add_0_r. exact H0.
  - apply wp_bind. eapply wp_mono.
    + apply (Hs a s); auto; lia.
    + intros [x'|r] Hy.
      * apply IH; auto.
        -- intros i x Hi1 Hi2. apply Hs; lia.
        -- intros x Hx. apply HQ. rewrite Nat.add_succ_r. exact Hx.
      * exact Hy.
Qed.

Lemma wp_for_ret : forall St R (I : nat -> St -> Prop) body (Q : St + R -> Prop) a b s,
  a <= b ->
  I a s ->
  (forall i x, a <= i -> i < b -> I i x ->
     wp (body i x) (fun y => match y with inl x' => I (S i) x' | inr r => Q (inr r) end)) ->
  (forall x, I b x -> Q (inl x)) ->
  wp (for_ret a b body s) Q.
Proof.
  intros St R I body Q a b s Hab H0 Hs HQ. unfold for_ret.
  apply wp_upret_n with (I := I); auto.
  - intros i x Hi1 Hi2. apply Hs; lia.
  - replace (a + (b - a)) with b by lia. exact HQ.
Qed.

Lemma wp_find_n : forall (P : nat -> bool) test (Q : option nat -> Prop) k a,
  (forall i, a <= i -> i < a + k -> wp (test i) (fun t => t = P i)) ->
  (forall j, a <= j -> j < a + k -> P j = true ->
     (forall i, a <= i -> i < j -> P i = false) -> Q (Some j)) ->
  ((forall i, a <= i -> i < a + k -> P i = false) -> Q None) ->
  wp (find_n k a test) Q.
Proof.
  intros P test Q k; induction k as [|k IH]; intros a Ht Hs Hn; simpl.
  - apply Hn. intros; lia.
  - apply wp_bind. eapply wp_mono; [ apply Ht; lia | ].
    intros t ->. destruct (P a) eqn:E.
    + apply Hs; auto; try lia.
    + apply IH.
      * intros; apply Ht; lia.
      * intros j H1 H2 H3 H4. apply Hs; auto; try lia.
        intros i Hi1 Hi2. destruct (Nat.eq_dec i a) as [->|]; auto. apply H4; lia.
      * intros H. apply Hn. intros i Hi1 Hi2.
        destruct (Nat.eq_dec i a) as [->|]; auto. apply H; lia.
Qed.

Lemma wp_find_up : forall (P : nat -> bool) test (Q : option nat -> Prop) a b,
  a <= b ->
  (forall i, a <= i -> i < b -> wp (test i) (fun t => t = P i)) ->
  (forall j, a <= j -> j < b -> P j = true ->
     (forall i, a <= i -> i < j -> P i = false) -> Q (Some j)) ->
  ((forall i, a <= i -> i < b -> P i = false) -> Q None) ->
  wp (find_up a b test) Q.
Proof.
  intros P test Q a b Hab Ht Hs Hn. unfold find_up.
  apply wp_find_n with (P := P).
  - intros; apply Ht; lia.
  - intros; apply Hs; auto; lia.
  - intros H; apply Hn; intros; apply H; lia.
Qed.

(** ** Lists *)

Lemma length_upd : forall A (l : list A) i x, length (upd l i x) = length l.
Proof. intros A l; induction l as [|h t IH]; intros [|i] x; simpl; auto. Qed.

Lemma nth_upd : forall A (l : list A) i x j d,
  i < length l -> nth j (upd l i x) d = if Nat.eqb j i then x else nth j l d.
Proof.
  intros A l; induction l as [|h t IH]; intros i x j d Hi; simpl in Hi; [lia|].
  destruct i as [|i], j as [|j]; simpl; auto.
  apply IH. lia.
Qed.

Lemma wp_aget : forall A (l : list A) i d (Q : A -> Prop),
  i < length l -> Q (nth i l d) -> wp (aget l i) Q.
Proof.
  intros A l i d Q Hi H. unfold aget.
  rewrite (nth_error_nth' l d Hi). exact H.
Qed.

Lemma aget_ok : forall A (l : list A) i d, i < length l -> aget l i = Ok (nth i l d).
Proof. intros A l i d H. unfold aget. rewrite (nth_error_nth' l d H). reflexivity. Qed.

Lemma aget_ub : forall A (l : list A) i, length l <= i -> aget l i = UB.
Proof. intros A l i H. unfold aget. apply nth_error_None in H. rewrite H. reflexivity. Qed.

Lemma wp_aset : forall A (l : list A) i x (Q : list A -> Prop),
  i < length l -> Q (upd l i x) -> wp (aset l i x) Q.
Proof.
  intros A l i x Q Hi H. unfold aset. apply Nat.ltb_lt in Hi. rewrite Hi. exact H.
Qed.

Lemma list_ext : forall A (d : A) (l1 l2 : list A),
  length l1 = length l2 ->
  (forall i, i < length l1 -> nth i l1 d = nth i l2 d) -> l1 = l2.
Proof.
  intros A d l1; induction l1 as [|h t IH]; intros [|h2 t2] HL H; simpl in *; try lia; auto.
  f_equal.
  - apply (H 0). lia.
  - apply IH; [lia|]. intros i Hi. apply (H (S i)). lia.
Qed.
