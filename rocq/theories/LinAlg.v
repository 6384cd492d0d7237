(** Lemmas about xor-sums and function matrices over GF(2). *)
From Coq Require Import Arith NArith List Bool Lia Setoid Morphisms.
From Verif Require Import Model Spec.
Import ListNotations.

Lemma xsum_ext : forall n f g, (forall k, k < n -> f k = g k) -> xsum n f = xsum n g.
Proof.
  induction n as [|n IH]; intros f g H; simpl; auto.
  rewrite (IH f g) by (intros; apply H; lia). rewrite (H n) by lia. reflexivity.
Qed.

Lemma xsum_false : forall n f, (forall k, k < n -> f k = false) -> xsum n f = false.
Proof.
  induction n as [|n IH]; intros f H; simpl; auto.
  rewrite IH by (intros; apply H; lia). rewrite H by lia. reflexivity.
Qed.

Lemma xsum_xorb : forall n f g,
  xsum n (fun k => xorb (f k) (g k)) = xorb (xsum n f) (xsum n g).
Proof.
  induction n as [|n IH]; intros f g; simpl; auto.
  rewrite IH. destruct (xsum n f), (xsum n g), (f n), (g n); reflexivity.
Qed.

Lemma xsum_andb_l : forall n b f, xsum n (fun k => b && f k) = b && xsum n f.
Proof.
  induction n as [|n IH]; intros b f; simpl.
  - destruct b; reflexivity.
  - rewrite IH. destruct b; reflexivity.
Qed.

Lemma xsum_andb_r : forall n b f, xsum n (fun k => f k && b) = xsum n f && b.
Proof.
  intros n b f. rewrite andb_comm, <- xsum_andb_l. apply xsum_ext.
  intros; apply andb_comm.
Qed.

Lemma xsum_swap : forall n m (f : nat -> nat -> bool),
  xsum n (fun i => xsum m (fun j => f i j)) = xsum m (fun j => xsum n (fun i => f i j)).
Proof.
  induction n as [|n IH]; intros m f; simpl.
  - symmetry. apply xsum_false. auto.
  - rewrite IH. rewrite <- xsum_xorb. reflexivity.
Qed.

Lemma xsum_single : forall n i f,
  i < n -> (forall k, k < n -> k <> i -> f k = false) -> xsum n f = f i.
Proof.
  induction n as [|n IH]; intros i f Hi H; [lia|]. simpl.
  destruct (Nat.eq_dec i n) as [->|Hne].
  - rewrite xsum_false by (intros; apply H; lia). destruct (f n); reflexivity.
  - rewrite (IH i f) by (try lia; intros; apply H; lia).
    rewrite (H n) by lia. apply xorb_false_r.
Qed.

Lemma xsum_fid_l : forall n i f, i < n -> xsum n (fun k => fid i k && f k) = f i.
Proof.
  intros n i f Hi. rewrite (xsum_single n i); auto.
  - unfold fid. rewrite Nat.eqb_refl. reflexivity.
  - intros k Hk Hne. unfold fid. destruct (Nat.eqb_spec i k); [lia|reflexivity].
Qed.

Lemma xsum_fid_r : forall n i f, i < n -> xsum n (fun k => f k && fid k i) = f i.
Proof.
  intros n i f Hi. rewrite (xsum_single n i); auto.
  - unfold fid. rewrite Nat.eqb_refl. apply andb_true_r.
  - intros k Hk Hne. unfold fid. destruct (Nat.eqb_spec k i); [lia|]. apply andb_false_r.
Qed.

Lemma xsum_add : forall a b f,
  xsum (a + b) f = xorb (xsum a f) (xsum b (fun k => f (a + k))).
Proof.
  intros a b; induction b as [|b IH]; intros f.
  - rewrite Nat.add_0_r. simpl. rewrite xorb_false_r. reflexivity.
  - rewrite Nat.add_succ_r. simpl. rewrite IH, xorb_assoc. reflexivity.
Qed.

Lemma xsum_rev : forall n f, xsum n f = xsum n (fun k => f (n - 1 - k)).
Proof.
  induction n as [|n IH]; intros f; auto.
  replace (xsum (S n) (fun k => f (S n - 1 - k)))
    with (xsum (1 + n) (fun k => f (S n - 1 - k))) by reflexivity.
  rewrite xsum_add.
  assert (E1 : xsum 1 (fun k => f (S n - 1 - k)) = f n).
  { simpl. rewrite !Nat.sub_0_r. destruct (f n); reflexivity. }
  rewrite E1, xorb_comm. simpl. f_equal.
  rewrite IH. apply xsum_ext. intros. f_equal; lia.
Qed.

(** ** Equality up to the dimension *)

Lemma feq_refl : forall n A, feq n A A.
Proof. intros n A i j _ _; reflexivity. Qed.
Lemma feq_sym : forall n A B, feq n A B -> feq n B A.
Proof. intros n A B H i j Hi Hj; symmetry; auto. Qed.
Lemma feq_trans : forall n A B C, feq n A B -> feq n B C -> feq n A C.
Proof. intros n A B C H1 H2 i j Hi Hj; rewrite H1; auto. Qed.

Global Instance feq_equiv n : Equivalence (feq n).
Proof.
  split; [ exact (feq_refl n) | exact (feq_sym n) | exact (feq_trans n) ].
Qed.

Lemma veq_refl : forall n x, veq n x x.
Proof. intros n x i _; reflexivity. Qed.
Lemma veq_sym : forall n x y, veq n x y -> veq n y x.
Proof. intros n x y H i Hi; symmetry; auto. Qed.
Lemma veq_trans : forall n x y z, veq n x y -> veq n y z -> veq n x z.
Proof. intros n x y z H1 H2 i Hi; rewrite H1; auto. Qed.
Global Instance veq_equiv n : Equivalence (veq n).
Proof.
  split; [ exact (veq_refl n) | exact (veq_sym n) | exact (veq_trans n) ].
Qed.

Global Instance fmul_proper n : Proper (feq n ==> feq n ==> feq n) (fmul n).
Proof.
  intros A A' HA B B' HB i j Hi Hj. unfold fmul. apply xsum_ext. intros k Hk.
  rewrite HA, HB; auto.
Qed.
Global Instance fapp_proper n : Proper (feq n ==> veq n ==> veq n) (fapp n).
Proof.
  intros A A' HA x x' Hx i Hi. unfold fapp. apply xsum_ext. intros k Hk.
  rewrite HA, Hx; auto.
Qed.
Global Instance ftr_proper n : Proper (feq n ==> feq n) ftr.
Proof. intros A A' HA i j Hi Hj. unfold ftr. auto. Qed.
Global Instance fadd_proper n : Proper (feq n ==> feq n ==> feq n) fadd.
Proof. intros A A' HA B B' HB i j Hi Hj. unfold fadd. rewrite HA, HB; auto. Qed.
Global Instance vadd_proper n : Proper (veq n ==> veq n ==> veq n) vadd.
Proof. intros x x' Hx y y' Hy i Hi. unfold vadd. rewrite Hx, Hy; auto. Qed.

(** ** Ring laws *)

Lemma fmul_assoc : forall n A B C, feq n (fmul n (fmul n A B) C) (fmul n A (fmul n B C)).
Proof.
  intros n A B C i j Hi Hj. unfold fmul.
  transitivity (xsum n (fun k => xsum n (fun l => A i l && B l k && C k j))).
  - apply xsum_ext. intros k Hk. rewrite <- xsum_andb_r. reflexivity.
  - rewrite xsum_swap. apply xsum_ext. intros l Hl.
    rewrite <- xsum_andb_l. apply xsum_ext. intros k Hk. symmetry. apply andb_assoc.
Qed.

Lemma fmul_id_l : forall n A, feq n (fmul n fid A) A.
Proof. intros n A i j Hi Hj. unfold fmul. apply (xsum_fid_l n i (fun k => A k j)); auto. Qed.
Lemma fmul_id_r : forall n A, feq n (fmul n A fid) A.
Proof. intros n A i j Hi Hj. unfold fmul. apply (xsum_fid_r n j (fun k => A i k)); auto. Qed.

Lemma fmul_fapp : forall n A B x, veq n (fapp n (fmul n A B) x) (fapp n A (fapp n B x)).
Proof.
  intros n A B x i Hi. unfold fapp, fmul.
  transitivity (xsum n (fun k => xsum n (fun l => A i l && B l k && x k))).
  - apply xsum_ext. intros k Hk. rewrite <- xsum_andb_r. reflexivity.
  - rewrite xsum_swap. apply xsum_ext. intros l Hl.
    rewrite <- xsum_andb_l. apply xsum_ext. intros k Hk. symmetry. apply andb_assoc.
Qed.

Lemma fapp_id : forall n x, veq n (fapp n fid x) x.
Proof. intros n x i Hi. unfold fapp. apply xsum_fid_l; auto. Qed.

Lemma fapp_vadd : forall n A x y, veq n (fapp n A (vadd x y)) (vadd (fapp n A x) (fapp n A y)).
Proof.
  intros n A x y i Hi. unfold fapp, vadd. rewrite <- xsum_xorb. apply xsum_ext.
  intros k Hk. destruct (A i k); simpl; auto.
Qed.

Lemma fmul_fadd_l : forall n A B C, feq n (fmul n A (fadd B C)) (fadd (fmul n A B) (fmul n A C)).
Proof.
  intros n A B C i j Hi Hj. unfold fmul, fadd. rewrite <- xsum_xorb. apply xsum_ext.
  intros k Hk. destruct (A i k); simpl; auto.
Qed.
Lemma fmul_fadd_r : forall n A B C, feq n (fmul n (fadd A B) C) (fadd (fmul n A C) (fmul n B C)).
Proof.
  intros n A B C i j Hi Hj. unfold fmul, fadd. rewrite <- xsum_xorb. apply xsum_ext.
  intros k Hk. destruct (A i k), (B i k), (C k j); simpl; auto.
Qed.

Lemma fmul_ftr : forall n A B, feq n (ftr (fmul n A B)) (fmul n (ftr B) (ftr A)).
Proof.
  intros n A B i j Hi Hj. unfold ftr, fmul. apply xsum_ext. intros; apply andb_comm.
Qed.

Lemma ftr_fid : forall n, feq n (ftr fid) fid.
Proof. intros n i j Hi Hj. unfold ftr, fid. apply Nat.eqb_sym. Qed.

(** ** Inverses *)

Global Instance inverse_of_proper n : Proper (feq n ==> feq n ==> iff) (inverse_of n).
Proof.
  intros A A' HA B B' HB. unfold inverse_of. rewrite HA, HB. reflexivity.
Qed.
Global Instance invertible_proper n : Proper (feq n ==> iff) (invertible n).
Proof.
  intros A A' HA. split; intros [B H]; exists B; [rewrite <- HA|rewrite HA]; exact H.
Qed.

Lemma inverse_of_sym : forall n A B, inverse_of n A B -> inverse_of n B A.
Proof. intros n A B [H1 H2]; split; auto. Qed.

Lemma inverse_of_mul : forall n A A' B B',
  inverse_of n A A' -> inverse_of n B B' -> inverse_of n (fmul n A B) (fmul n B' A').
Proof.
  intros n A A' B B' [H1 H2] [H3 H4]; split.
  - rewrite fmul_assoc, <- (fmul_assoc n B B' A'), H3, fmul_id_l. exact H1.
  - rewrite fmul_assoc, <- (fmul_assoc n A' A B), H2, fmul_id_l. exact H4.
Qed.

Lemma inverse_of_fid : forall n, inverse_of n fid fid.
Proof. intros n; split; apply fmul_id_l. Qed.

Lemma inverse_unique : forall n A B C,
  feq n (fmul n B A) fid -> feq n (fmul n A C) fid -> feq n B C.
Proof.
  intros n A B C H1 H2.
  rewrite <- (fmul_id_r n B), <- H2, <- fmul_assoc, H1, fmul_id_l. reflexivity.
Qed.

Lemma inverse_of_unique : forall n A B C,
  inverse_of n A B -> inverse_of n A C -> feq n B C.
Proof. intros n A B C [_ H1] [H2 _]. eapply inverse_unique; eauto. Qed.

Lemma invertible_mul : forall n A B, invertible n A -> invertible n B -> invertible n (fmul n A B).
Proof.
  intros n A B [A' HA] [B' HB]. exists (fmul n B' A'). apply inverse_of_mul; auto.
Qed.

(** Left inverse of an invertible matrix is its inverse *)
Lemma left_inverse_of_invertible : forall n A B,
  invertible n A -> feq n (fmul n B A) fid -> inverse_of n A B.
Proof.
  intros n A B [C HC] HB.
  assert (H : feq n B C) by (eapply inverse_unique; [exact HB|exact (proj1 HC)]).
  rewrite H. exact HC.
Qed.
Lemma right_inverse_of_invertible : forall n A B,
  invertible n A -> feq n (fmul n A B) fid -> inverse_of n A B.
Proof.
  intros n A B [C HC] HB.
  assert (H : feq n C B) by (eapply inverse_unique; [exact (proj2 HC)|exact HB]).
  rewrite <- H. exact HC.
Qed.

Lemma inverse_of_ftr : forall n A B, inverse_of n A B -> inverse_of n (ftr A) (ftr B).
Proof.
  intros n A B [H1 H2]; split.
  - rewrite <- fmul_ftr, H2. apply ftr_fid.
  - rewrite <- fmul_ftr, H1. apply ftr_fid.
Qed.

Lemma invertible_ftr : forall n A, invertible n A <-> invertible n (ftr A).
Proof.
  intros n A; split; intros [B HB].
  - exists (ftr B). apply inverse_of_ftr; auto.
  - exists (ftr B). apply (inverse_of_ftr n (ftr A) B HB).
Qed.

(** A matrix with a non-trivial null vector has no left inverse *)
Lemma null_no_left_inverse : forall n A x,
  (exists i, i < n /\ x i = true) -> veq n (fapp n A x) (fun _ => false) ->
  forall B, ~ feq n (fmul n B A) fid.
Proof.
  intros n A x [i [Hi Hx]] H0 B HB.
  assert (E : veq n x (fun _ => false)).
  { rewrite <- (fapp_id n x), <- HB, fmul_fapp, H0.
    intros k Hk. unfold fapp. apply xsum_false. intros; apply andb_false_r. }
  rewrite (E i Hi) in Hx. discriminate.
Qed.

(** ** Elementary row operations *)

Definition radd (j i : nat) (A : fmat) : fmat :=
  fun r c => if Nat.eqb r j then xorb (A j c) (A i c) else A r c.
Definition rswap (i j : nat) (A : fmat) : fmat :=
  fun r c => A (if Nat.eqb r i then j else if Nat.eqb r j then i else r) c.

Global Instance radd_proper n j i : j < n -> i < n -> Proper (feq n ==> feq n) (radd j i).
Proof.
  intros Hj Hi A A' HA r c Hr Hc. unfold radd.
  destruct (Nat.eqb_spec r j); rewrite !HA; auto.
Qed.

Lemma radd_ext : forall n j i A A', j < n -> i < n -> feq n A A' -> feq n (radd j i A) (radd j i A').
Proof. intros; apply radd_proper; auto. Qed.
Lemma rswap_ext : forall n i j A A', j < n -> i < n -> feq n A A' -> feq n (rswap i j A) (rswap i j A').
Proof.
  intros n i j A A' Hj Hi HA r c Hr Hc. unfold rswap. apply HA; auto.
  destruct (Nat.eqb_spec r i); auto. destruct (Nat.eqb_spec r j); auto.
Qed.

Lemma radd_fmul : forall n j i A B, feq n (radd j i (fmul n A B)) (fmul n (radd j i A) B).
Proof.
  intros n j i A B r c Hr Hc. unfold radd, fmul.
  destruct (Nat.eqb r j); auto.
  rewrite <- xsum_xorb. apply xsum_ext. intros k Hk.
  destruct (A j k), (A i k), (B k c); reflexivity.
Qed.
Lemma rswap_fmul : forall n i j A B, feq n (rswap i j (fmul n A B)) (fmul n (rswap i j A) B).
Proof. intros n i j A B r c Hr Hc. reflexivity. Qed.

Lemma radd_invol : forall n j i A, j <> i -> feq n (radd j i (radd j i A)) A.
Proof.
  intros n j i A Hji r c Hr Hc. unfold radd.
  destruct (Nat.eqb_spec r j) as [->|]; auto.
  rewrite Nat.eqb_refl. destruct (Nat.eqb_spec i j); [lia|].
  destruct (A j c), (A i c); reflexivity.
Qed.
Lemma rswap_invol : forall n i j A, feq n (rswap i j (rswap i j A)) A.
Proof.
  intros n i j A r c Hr Hc. unfold rswap. f_equal.
  destruct (Nat.eqb_spec r i) as [->|].
  - destruct (Nat.eqb_spec j i); auto. rewrite Nat.eqb_refl. reflexivity.
  - destruct (Nat.eqb_spec r j) as [->|].
    + rewrite Nat.eqb_refl. reflexivity.
    + destruct (Nat.eqb_spec r i); [lia|]. destruct (Nat.eqb_spec r j); [lia|]. reflexivity.
Qed.

Lemma radd_id_invertible : forall n j i, j < n -> i < n -> j <> i ->
  inverse_of n (radd j i fid) (radd j i fid).
Proof.
  intros n j i Hj Hi Hne.
  assert (H : feq n (fmul n (radd j i fid) (radd j i fid)) fid).
  { rewrite <- (radd_fmul n j i fid (radd j i fid)).
    rewrite (radd_ext n j i _ (radd j i fid) Hj Hi (fmul_id_l n (radd j i fid))).
    apply radd_invol; auto. }
  split; exact H.
Qed.
Lemma rswap_id_invertible : forall n i j, j < n -> i < n ->
  inverse_of n (rswap i j fid) (rswap i j fid).
Proof.
  intros n i j Hj Hi.
  assert (H : feq n (fmul n (rswap i j fid) (rswap i j fid)) fid).
  { rewrite <- (rswap_fmul n i j fid (rswap i j fid)).
    rewrite (rswap_ext n i j _ (rswap i j fid) Hj Hi (fmul_id_l n (rswap i j fid))).
    apply rswap_invol. }
  split; exact H.
Qed.

Lemma radd_as_mul : forall n j i A, j < n -> i < n ->
  feq n (radd j i A) (fmul n (radd j i fid) A).
Proof.
  intros n j i A Hj Hi. rewrite <- radd_fmul. apply radd_ext; auto.
  symmetry. apply fmul_id_l.
Qed.
Lemma rswap_as_mul : forall n i j A, j < n -> i < n ->
  feq n (rswap i j A) (fmul n (rswap i j fid) A).
Proof.
  intros n i j A Hj Hi. rewrite <- rswap_fmul. apply rswap_ext; auto.
  symmetry. apply fmul_id_l.
Qed.

Lemma radd_invertible : forall n j i A, j < n -> i < n -> j <> i ->
  invertible n A -> invertible n (radd j i A).
Proof.
  intros n j i A Hj Hi Hne HA. rewrite radd_as_mul by auto.
  apply invertible_mul; auto. eexists. apply radd_id_invertible; auto.
Qed.
Lemma rswap_invertible : forall n i j A, j < n -> i < n ->
  invertible n A -> invertible n (rswap i j A).
Proof.
  intros n i j A Hj Hi HA. rewrite rswap_as_mul by auto.
  apply invertible_mul; auto. eexists. apply rswap_id_invertible; auto.
Qed.

(** ** Null vector of a matrix which is triangular up to a missing pivot *)

(** Solve a unit upper triangular system in the first i unknowns *)
Lemma triangular_solve : forall n i U (c : fvec), i <= n ->
  (forall k, k < i -> U k k = true) ->
  (forall r k, k < i -> k < r -> r < n -> U r k = false) ->
  forall d, d <= i -> exists x : fvec,
    (forall k, (k < i - d \/ i <= k) -> x k = false) /\
    (forall r, i - d <= r -> r < i -> fapp n U x r = c r).
Proof.
  intros n i U c Hin Hd Hz d. induction d as [|d IH]; intros Hdi.
  - exists (fun _ => false). split; auto. intros; lia.
  - destruct IH as [x [Hx1 Hx2]]; [lia|].
    set (t := i - S d).
    set (b := xorb (c t) (fapp n U x t)).
    exists (fun k => if Nat.eqb k t then b else x k).
    assert (E : forall r, r < n ->
      fapp n U (fun k => if Nat.eqb k t then b else x k) r = xorb (fapp n U x r) (U r t && b)).
    { intros r Hr. unfold fapp.
      transitivity (xsum n (fun k => xorb (U r k && x k) (fid t k && (U r k && b)))).
      - apply xsum_ext. intros k Hk. unfold fid.
        destruct (Nat.eqb_spec k t) as [->|Hne].
        + rewrite Nat.eqb_refl. rewrite (Hx1 t) by (unfold t; lia).
          destruct (U r t), b; reflexivity.
        + destruct (Nat.eqb_spec t k); [lia|]. rewrite andb_false_l, xorb_false_r. reflexivity.
      - rewrite xsum_xorb. f_equal. apply (xsum_fid_l n t (fun k => U r k && b)).
        unfold t; lia. }
    split.
    + intros k Hk. destruct (Nat.eqb_spec k t); [unfold t in *; lia|].
      apply Hx1. unfold t in *; lia.
    + intros r Hr1 Hr2. rewrite E by lia.
      destruct (Nat.eq_dec r t) as [->|Hne].
      * rewrite Hd by lia. simpl. unfold b.
        destruct (c t), (fapp n U x t); reflexivity.
      * rewrite (Hz r t) by (unfold t in *; lia). simpl. rewrite xorb_false_r.
        apply Hx2; unfold t in *; lia.
Qed.

Lemma missing_pivot_null : forall n i U, i < n ->
  (forall k, k < i -> U k k = true) ->
  (forall r k, k < i -> k < r -> r < n -> U r k = false) ->
  (forall r, i <= r -> r < n -> U r i = false) ->
  exists x : fvec, (exists k, k < n /\ x k = true) /\ veq n (fapp n U x) (fun _ => false).
Proof.
  intros n i U Hi Hd Hz Hp.
  destruct (triangular_solve n i U (fun r => U r i) (Nat.lt_le_incl _ _ Hi) Hd Hz i (le_n i))
    as [x [Hx1 Hx2]].
  exists (fun k => if Nat.eqb k i then true else x k). split.
  - exists i. rewrite Nat.eqb_refl. auto.
  - intros r Hr.
    assert (E : fapp n U (fun k => if Nat.eqb k i then true else x k) r
                = xorb (fapp n U x r) (U r i)).
    { unfold fapp.
      transitivity (xsum n (fun k => xorb (U r k && x k) (fid i k && U r k))).
      - apply xsum_ext. intros k Hk. unfold fid.
        destruct (Nat.eqb_spec k i) as [->|Hne].
        + rewrite Nat.eqb_refl. rewrite (Hx1 i) by lia.
          destruct (U r i); reflexivity.
        + destruct (Nat.eqb_spec i k); [lia|]. rewrite andb_false_l, xorb_false_r. reflexivity.
      - rewrite xsum_xorb. f_equal. apply (xsum_fid_l n i (fun k => U r k)). exact Hi. }
    rewrite E.
    destruct (Nat.lt_ge_cases r i) as [Hlt|Hge].
    + rewrite Hx2 by lia. apply xorb_nilpotent.
    + rewrite Hp by lia. rewrite xorb_false_r.
      unfold fapp. apply xsum_false. intros k Hk.
      destruct (Nat.lt_ge_cases k i) as [Hki|Hki].
      * rewrite (Hz r k) by lia. reflexivity.
      * rewrite (Hx1 k) by lia. apply andb_false_r.
Qed.
