(** Boolean checks used to show that concrete examples meet the hypotheses. *)
From Coq Require Import Arith NArith List Bool Lia.
From Verif Require Import Base Tables Model Spec LinAlg Mem Cons Elim.
Import ListNotations.

Definition vec_ofb (w : width) (bits : nat) (v : list N) : bool :=
  Nat.eqb (length v) (nw w) && forallb (fun x => N.ltb x (2 ^ N.of_nat bits)) v.
Definition mat_ofb (w : width) (bits : nat) (m : list (list N)) : bool :=
  Nat.eqb (length m) (dim w) && forallb (vec_ofb w bits) m.

Lemma vec_ofb_ok : forall w bits v, vec_ofb w bits v = true -> vec_of w bits v.
Proof.
  intros w bits v H. apply andb_true_iff in H. destruct H as [H1 H2].
  apply Nat.eqb_eq in H1. split; auto. apply Forall_forall. rewrite forallb_forall in H2.
  intros x Hx. apply N.ltb_lt. auto.
Qed.
Lemma mat_ofb_ok : forall w bits m, mat_ofb w bits m = true -> mat_of w bits m.
Proof.
  intros w bits m H. apply andb_true_iff in H. destruct H as [H1 H2].
  apply Nat.eqb_eq in H1. split; auto. apply Forall_forall. rewrite forallb_forall in H2.
  intros x Hx. apply vec_ofb_ok. auto.
Qed.

(** the invertibility test decides invertibility *)
Lemma isinvert_1 : forall w m, wfM w m -> isinvert w m = Ok 1%N -> invertible (dim w) (mbit w m).
Proof.
  intros w m Hm E. pose proof (isinvert_wp w m Hm) as H. rewrite E in H. simpl in H.
  destruct H as [[_ H]|[H _]]; [exact H|discriminate].
Qed.
Lemma isinvert_0 : forall w m, wfM w m -> isinvert w m = Ok 0%N -> ~ invertible (dim w) (mbit w m).
Proof.
  intros w m Hm E. pose proof (isinvert_wp w m Hm) as H. rewrite E in H. simpl in H.
  destruct H as [[H _]|[_ H]]; [discriminate|exact H].
Qed.

(** sample matrices: upper unitriangular with a dense upper part, and singular ones *)
Definition sample (w : width) : list (list N) :=
  mk w (fun i k =>
    if Nat.ltb k (i / wb w) then 0
    else if Nat.eqb k (i / wb w) then 2 ^ N.of_nat (wb w - i mod wb w) - 1
    else 2 ^ N.of_nat (wb w) - 1)%N.
(** every row equal: rank 1 *)
Definition rank1 (w : width) : list (list N) := mk w (fun i k => 5%N).
Definition zeros (w : width) : list (list N) := mk w (fun _ _ => 0%N).
Definition zerov (w : width) : list N := mkv w (fun _ => 0%N).
Definition samplev (w : width) : list N := mkv w (fun k => 9%N).

Lemma wf_sample : forall w, wfM w (sample w).
Proof. intros w. apply mat_ofb_ok. destruct w; vm_compute; reflexivity. Qed.
Lemma wf_rank1 : forall w, wfM w (rank1 w).
Proof. intros w. apply mat_ofb_ok. destruct w; vm_compute; reflexivity. Qed.
Lemma wf_samplev : forall w, wfV w (samplev w).
Proof. intros w. apply vec_ofb_ok. destruct w; vm_compute; reflexivity. Qed.
Lemma shape_zeros : forall w, shapeM w (zeros w).
Proof. intros w. apply shape_mk. Qed.
Lemma shape_zerov : forall w, shapeV w (zerov w).
Proof. intros w. apply shape_mkv. Qed.
Lemma sample_invertible : forall w, isinvert w (sample w) = Ok 1%N.
Proof. destruct w; vm_compute; reflexivity. Qed.
Lemma rank1_singular : forall w, isinvert w (rank1 w) = Ok 0%N.
Proof. destruct w; vm_compute; reflexivity. Qed.
