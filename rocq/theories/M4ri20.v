(** mzd_invert_naive of ModelM4ri2.v, and the undefined cases of mzd_submatrix *)
From Coq Require Import Arith NArith ZArith List Bool Lia ZifyNat.
From Verif Require Import Base Spec LinAlg ModelM4ri SpecM4ri M4ri1 M4ri2 M4ri8 ModelM4ri2 M4ri9 M4ri16 M4ri18 M4ri19 SpecM4ri2.
Import ListNotations.
Local Open Scope nat_scope.
#[local] Ltac Zify.zify_post_hook ::= Z.to_euclidean_division_equations.

Lemma wp_invert_naive : forall n A I0, okm n n A -> okm n n I0 -> 0 < n -> feq n (bitat I0) fid ->
  wp (mzd_invert_naive A I0) (fun o => exists B, o = Some B /\ okm n n B /\ invertible n (bitat B) /\
    (exists r, rref n n (fmul n (bitat B) (bitat A)) r) /\ (invertible n (bitat A) -> inverse_of n (bitat A) (bitat B))).
Proof.
  intros n A I0 HA HI Hn HE. unfold mzd_invert_naive. pose proof HA as [HrA [HcA _]]. rewrite HrA, HcA.
  apply wp_bind, (wp_concat n n n); auto. intros M HM HB.
  apply wp_bind, (wp_echelonize_naive n (n + n)); auto. intros M' r q HM' HR Hr HP.
  destruct (aug_inverse n n (n + n) (bitat A) (bitat M) (bitat M') r q) as [V1 [[r' V2] V3]]; auto.
  { intros i j Hi Hj. rewrite HB by exact Hi. destruct (Nat.ltb_spec j n); [reflexivity|lia]. }
  { intros i j Hi Hj. rewrite HB by exact Hi. destruct (Nat.ltb_spec (n + j) n); [lia|].
    replace (n + j - n) with j by lia. rewrite HE by assumption. unfold fid. apply Nat.eqb_sym. }
  cbv zeta in *.
  destruct (Nat.eqb_spec r 0) as [->|Hr0].
  { exfalso. destruct V1 as [W [H1 H2]]. specialize (H1 0 0 Hn Hn). unfold fmul, fid in H1. cbn [Nat.eqb] in H1.
    assert (Hz : forall f, (forall k, k < n -> f k = false) -> xsum n f = false).
    { intros f Hf. rewrite (xsum_ext n f (fun _ => false) Hf). apply xsum_false. reflexivity. }
    rewrite Hz in H1; [discriminate|]. intros k Hk. destruct HP as (_ & _ & _ & _ & _ & P6). rewrite P6 by lia. reflexivity. }
  apply wp_bind, (wp_submatrix n (n + n)); [exact HM'|lia|lia|lia|lia| |].
  { replace (2 * n - n) with n by lia. destruct (Nat.eq_dec (n mod 64) 0); [left|right]; assumption. }
  intros S HS Hb. rewrite Nat.sub_0_r in *. replace (2 * n - n) with n in * by lia.
  apply wp_ok. exists S. split; [reflexivity|]. split; [exact HS|].
  assert (EV : feq n (bitat S) (fun i j => bitat M' i (n + j))).
  { intros i j Hi Hj. rewrite Hb by assumption. reflexivity. }
  split; [rewrite EV; exact V1|]. split.
  - exists r'. destruct V2 as (Q1 & q' & Q2 & Q3 & Q4 & Q5 & Q6).
    assert (EF : forall i j, i < n -> j < n -> fmul n (bitat S) (bitat A) i j = fmul n (fun i j => bitat M' i (n + j)) (bitat A) i j).
    { intros i j Hi Hj. unfold fmul. apply xsum_ext. intros k Hk. rewrite EV by auto. reflexivity. }
    split; [exact Q1|]. exists q'. refine (conj Q2 (conj Q3 (conj _ (conj _ _)))).
    + intros l j Hl Hj. specialize (Q2 l Hl). rewrite EF by lia. apply Q4; auto.
    + intros l i Hl Hi. rewrite EF by auto. apply Q5; auto.
    + intros i j H1 H2 H3. rewrite EF by auto. apply Q6; auto.
  - intros HI'. specialize (V3 HI'). unfold inverse_of in *. rewrite EV. exact V3.
Qed.

(** An unaligned submatrix whose number of columns is a multiple of 64 reads 0 bits *)
Lemma bind_ub : forall A B (c : res A) (f : A -> res B), (forall a, f a = UB) -> bind c f = UB.
Proof. intros A B [a|] f H; [apply H|reflexivity]. Qed.
Lemma submatrix_ub : forall M sr sc er ec, sr < er -> sc <= ec ->
  sc mod 64 <> 0 -> (ec - sc) mod 64 = 0 -> mzd_submatrix M sr sc er ec = UB.
Proof.
  intros M sr sc er ec H1 H3 H5 H6. unfold mzd_submatrix.
  destruct (Nat.ltb_spec er sr); [lia|]. destruct (Nat.ltb_spec ec sc); [reflexivity|]. cbn [orb]. cbv zeta.
  set (nc := ec - sc) in *. clearbody nc.
  assert (HR : forall mask x row, submatrix_row M sc nc mask x row = UB).
  { intros mask x row. unfold submatrix_row. destruct (Nat.eqb_spec (sc mod 64) 0); [contradiction|].
    apply bind_ub. intros row1. cbv zeta. apply bind_ub. intros w.
    replace (nc - 64 * (nc / 64)) with 0 by lia.
    replace (mzd_read_bits M x (sc + 64 * (nc / 64)) 0) with (@UB N); [reflexivity|].
    symmetry. unfold mzd_read_bits. apply bind_ub. intros t. reflexivity. }
  unfold for_up. destruct (er - sr - 0) as [|nr] eqn:E; [lia|]. cbn [up_n].
  match goal with |- bind (bind ?c _) _ = _ => replace c with (@UB (list (list N))) end; [reflexivity|].
  symmetry. apply bind_ub. intros row. rewrite HR. reflexivity.
Qed.
