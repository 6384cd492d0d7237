(** Integer matrices that have a left inverse modulo 2 are invertible over the rationals *)
From Coq Require Import Arith ZArith QArith Qcanon List Bool Lia.
From Verif Require Import Base SpecQ Lap Inv6.
Import ListNotations.
Open Scope nat_scope.

Fixpoint zsum (n : nat) (f : nat -> Z) : Z := match n with 0 => 0%Z | S m => (zsum m f + f m)%Z end.
Lemma zsum_ext : forall n f g, (forall i, i < n -> f i = g i) -> zsum n f = zsum n g.
Proof. induction n; intros f g H; cbn [zsum]; auto. rewrite (IHn f g), (H n) by auto. reflexivity. Qed.
Lemma zsum_0 : forall n, zsum n (fun _ => 0%Z) = 0%Z.
Proof. induction n; cbn [zsum]; lia. Qed.
Lemma zsum_plus : forall n f g, zsum n (fun i => (f i + g i)%Z) = (zsum n f + zsum n g)%Z.
Proof. induction n; intros; cbn [zsum]; [lia|]. rewrite IHn. lia. Qed.
Lemma zsum_scale : forall n c f, zsum n (fun i => (c * f i)%Z) = (c * zsum n f)%Z.
Proof. induction n; intros; cbn [zsum]; [lia|]. rewrite IHn. lia. Qed.
Lemma zsum_comm : forall n m (f : nat -> nat -> Z),
  zsum n (fun i => zsum m (fun j => f i j)) = zsum m (fun j => zsum n (fun i => f i j)).
Proof.
  induction n; intros m f; cbn [zsum]; [rewrite zsum_0; auto|]. rewrite IHn, <- zsum_plus. reflexivity.
Qed.
Lemma zsum_single : forall n k f, k < n -> (forall i, i < n -> i <> k -> f i = 0%Z) -> zsum n f = f k.
Proof.
  induction n; intros k f Hk H; [lia|]. cbn [zsum]. destruct (Nat.eq_dec k n) as [->|Hn].
  - rewrite (zsum_ext n f (fun _ => 0%Z)), zsum_0 by (intros; apply H; lia). lia.
  - rewrite (IHn k f), (H n) by (try intros; auto; lia). lia.
Qed.
Lemma q_of_zsum : forall n f, q_of_Z (zsum n f) = qsum n (fun i => q_of_Z (f i)).
Proof. induction n; intros f; cbn [zsum qsum]; [reflexivity|]. rewrite q_of_Z_add, IHn. reflexivity. Qed.

(** B * A is the identity modulo 2 *)
Definition zleft2 (n : nat) (B A : zmat) : Prop := forall i j, i < n -> j < n ->
  exists c, zsum n (fun k => (B i k * A k j)%Z) = ((if Nat.eqb i j then 1 else 0) + 2 * c)%Z.

Lemma even_kernel : forall n A B u, zleft2 n B A -> (forall i, i < n -> zsum n (fun j => (A i j * u j)%Z) = 0%Z) ->
  forall i, i < n -> exists w, u i = (2 * w)%Z.
Proof.
  intros n A B u HB HA i Hi.
  assert (E0 : zsum n (fun k => (B i k * zsum n (fun j => A k j * u j))%Z) = 0%Z).
  { rewrite (zsum_ext n _ (fun _ => 0%Z)); [apply zsum_0|]. intros k Hk. rewrite HA by auto. lia. }
  assert (E1 : zsum n (fun j => (zsum n (fun k => B i k * A k j) * u j)%Z) = 0%Z).
  { rewrite <- E0. rewrite (zsum_ext n _ (fun j => zsum n (fun k => (B i k * (A k j * u j))%Z))).
    - rewrite zsum_comm. apply zsum_ext. intros k Hk. rewrite zsum_scale. reflexivity.
    - intros j Hj. rewrite Z.mul_comm, <- zsum_scale. apply zsum_ext. intros; ring. }
  assert (E2 : forall m, m <= n -> exists w, zsum m (fun j => (zsum n (fun k => B i k * A k j) * u j)%Z) =
    (zsum m (fun j => (if Nat.eqb i j then 1 else 0) * u j) + 2 * w)%Z).
  { induction m as [|m IH]; intros Hm; [exists 0%Z; reflexivity|]. destruct (IH ltac:(lia)) as (w & E).
    destruct (HB i m Hi ltac:(lia)) as (c & Ec). exists (w + c * u m)%Z. cbn [zsum]. rewrite E, Ec. ring. }
  destruct (E2 n (le_n n)) as (w & E). rewrite E1 in E. rewrite (zsum_single n i) in E; auto.
  - rewrite Nat.eqb_refl in E. exists (- w)%Z. lia.
  - intros j _ Hj. destruct (Nat.eqb_spec i j); [lia|]. lia.
Qed.

Lemma int_kernel : forall n A B, zleft2 n B A -> forall i, i < n -> forall b u, (Z.abs (u i) <= Z.of_nat b)%Z ->
  (forall i, i < n -> zsum n (fun j => (A i j * u j)%Z) = 0%Z) -> u i = 0%Z.
Proof.
  intros n A B HB i Hi b. induction b as [|b IH]; intros u Hu HA; [lia|].
  assert (H2 : forall m, m <= n -> exists u', forall j, j < m -> u j = (2 * u' j)%Z).
  { induction m as [|m IHm]; intros Hm; [exists (fun _ => 0%Z); intros; lia|]. destruct (IHm ltac:(lia)) as (u' & E).
    destruct (even_kernel n A B u HB HA m ltac:(lia)) as (w & Ew). exists (fun j => if Nat.eqb j m then w else u' j).
    intros j Hj. destruct (Nat.eqb_spec j m) as [->|]; auto. apply E. lia. }
  destruct (H2 n (le_n n)) as (u' & E). rewrite (E i Hi) in *.
  destruct (Z.eq_dec (u' i) 0) as [Z0|NZ]; [lia|].
  rewrite (IH u'); [lia|lia|]. intros k Hk.
  assert (HK := HA k Hk). rewrite (zsum_ext n _ (fun j => (2 * (A k j * u' j))%Z)) in HK.
  - rewrite zsum_scale in HK. lia.
  - intros j Hj. rewrite E by auto. ring.
Qed.

Lemma q_num_den : forall x : Qc, (x * q_of_Z (Zpos (Qden (this x))) = q_of_Z (Qnum (this x)))%Qc.
Proof.
  intros x. apply Qc_is_canon. unfold q_of_Z. cbn [this Q2Qc Qcmult]. rewrite !Qred_correct.
  unfold inject_Z, Qeq, Qmult. cbn [Qnum Qden]. lia.
Qed.
Lemma q_of_Z_nz : forall z, z <> 0%Z -> q_of_Z z <> 0%Qc.
Proof. intros z H E. apply H. apply q_of_Z_inj. exact E. Qed.
Lemma clear_denominators : forall (v : nat -> Qc) n, exists D u, D <> 0%Z /\ forall j, j < n -> (v j * q_of_Z D = q_of_Z (u j))%Qc.
Proof.
  intros v n. induction n as [|n (D & u & HD & E)].
  - exists 1%Z, (fun _ => 0%Z). split; [lia|]. intros; lia.
  - set (d := Zpos (Qden (this (v n)))). exists (D * d)%Z, (fun j => if Nat.eqb j n then (Qnum (this (v n)) * D)%Z else (u j * d)%Z).
    split; [unfold d; lia|]. intros j Hj. destruct (Nat.eqb_spec j n) as [->|].
    + rewrite !q_of_Z_mul, <- q_num_den. fold d. ring.
    + rewrite !q_of_Z_mul, <- E by lia. ring.
Qed.

Lemma left2_invertible : forall n A B, zleft2 n B A -> qinvertible n (qz A).
Proof.
  intros n A B HB. apply qdet_invertible. apply nokernel_det. intros x HX c Hc.
  destruct (clear_denominators x n) as (D & u & HD & E).
  assert (U : forall i, i < n -> zsum n (fun j => (A i j * u j)%Z) = 0%Z).
  { intros i Hi. apply q_of_Z_inj. rewrite q_of_zsum. change (q_of_Z 0) with 0%Qc.
    rewrite (qsum_ext n _ (fun j => (qz A i j * x j * q_of_Z D)%Qc)).
    - rewrite qsum_scale_r, (HX i Hi). ring.
    - intros j Hj. rewrite q_of_Z_mul, <- E by auto. unfold qz. ring. }
  pose proof (int_kernel n A B HB c Hc (Z.to_nat (Z.abs (u c))) u ltac:(lia) U) as U0.
  specialize (E c Hc). rewrite U0 in E. change (q_of_Z 0) with 0%Qc in E.
  destruct (Qcmult_integral _ _ E) as [|F]; auto. destruct (q_of_Z_nz D HD F).
Qed.

(** the check for lists of rows *)
Definition rowsz (l : list (list Z)) : zmat := fun i j => nth j (nth i l []) 0%Z.
Definition left2b (n : nat) (B A : list (list Z)) : bool :=
  forallb (fun i => forallb (fun j =>
    Z.even (zsum n (fun k => (rowsz B i k * rowsz A k j)%Z) - (if Nat.eqb i j then 1 else 0))) (seq 0 n)) (seq 0 n).
Lemma left2b_ok : forall n B A, left2b n B A = true -> qinvertible n (qrows A).
Proof.
  intros n B A H. change (qrows A) with (qz (rowsz A)). apply left2_invertible with (B := rowsz B). intros i j Hi Hj.
  unfold left2b in H. rewrite forallb_forall in H. specialize (H i). rewrite in_seq, forallb_forall in H.
  specialize (H ltac:(lia) j). rewrite in_seq in H. specialize (H ltac:(lia)).
  apply Z.even_spec in H. destruct H as [c Hc]. exists c. lia.
Qed.
