(** Final form of the properties C58 and C59 (basis matrix method).  tools/gen_props.py copies
    the statements (names without the suffix _main) to Properties9.v. *)
From Coq Require Import Arith NArith List Bool Lia.
From Verif Require Import Base Tables Model Spec LinAlg Mem Cons Mul Check RowProd ModelBasis SpecBasis Basis.
Import ListNotations.

Lemma nmul_spec : forall w, upto128 w -> nmul w = dim w * dim w / 4.
Proof. intros w [[->|[->|[->| ->]]]| ->]; vm_compute; reflexivity. Qed.
Lemma in_upto64 : forall w, In w [W8; W16; W32; W64] -> upto64 w.
Proof. intros w H. cbn [In] in H. unfold upto64. intuition. Qed.
Lemma in_upto128 : forall w, In w [W8; W16; W32; W64; W128] -> upto128 w.
Proof. intros w H. cbn [In] in H. unfold upto128, upto64. intuition. Qed.

Lemma along_inverse : forall w d, upto64 w -> (forall i, N.to_nat (d i) < 16) ->
  inverse_of (dim w) (fprod (dim w) (nmul w) (along w (basis w) d))
    (fprod (dim w) (nmul w) (fun i => along w (basis_inv w) d (nmul w - 1 - i))).
Proof.
  intros w d Hw Hd. apply (fprod_inverse (dim w) (nmul w) (along w (basis w) d)
    (along w (basis_inv w) d)).
  intros i _. unfold along. apply (tables_pair w (N.to_nat (d i)) Hw (Hd i)).
Qed.

(** C58: for the widths 8 to 64 entry k of the second table is the inverse of entry k of the
    first *)
Lemma C58_tables_main : forall w k, In w [W8; W16; W32; W64] -> k < 16 ->
  inverse_of (dim w) (mbit w (nth k (basis w) [])) (mbit w (nth k (basis_inv w) [])).
Proof. intros w k Hw Hk. apply (tables_pair w k (in_upto64 w Hw) Hk). Qed.

(** C58: InvTMat returns the product of the n * n / 4 drawn matrices, which is invertible, for
    every sequence r of values returned by rand() *)
Lemma C58_InvTMat_main : forall e w r t0 m seed, In w [W8; W16; W32; W64] ->
  shapeM w t0 -> shapeM w m -> seed <> (2 ^ 31 - 1)%N ->
  exists m', InvT_basis e w r t0 m seed = Ok (m', ((seed + 1) mod 2 ^ 32)%N) /\ wfM w m' /\
    feq (dim w) (mbit w m') (fprod (dim w) (dim w * dim w / 4)
      (fun i => mbit w (nth (N.to_nat (r i mod 16)) (basis w) []))) /\
    invertible (dim w) (mbit w m').
Proof.
  intros e w r t0 m seed Hw Ht Hm Hs. apply in_upto64 in Hw.
  assert (Hw' : upto128 w) by (left; exact Hw).
  pose proof (InvT_basis_wp e w r t0 m seed Hw' Ht Hm Hs) as W.
  destruct (InvT_basis e w r t0 m seed) as [[m' s']|]; [|contradiction W]. cbn [wp] in W.
  destruct W as (-> & H1 & H2). exists m'. split; [reflexivity|]. split; [exact H1|]. split.
  - rewrite <- (nmul_spec w Hw'). exact H2.
  - exists (fprod (dim w) (nmul w) (fun i => along w (basis_inv w) (draw r) (nmul w - 1 - i))).
    rewrite H2. apply along_inverse; auto using draw_lt.
Qed.

(** C58: Trail records its draws in row k only, and InvSMat of that row is the inverse of the
    product of the drawn matrices *)
Lemma C58_InvSMat_main : forall e w r t0 v tm k, In w [W8; W16; W32; W64] ->
  shapeM w t0 -> shapeM w v -> k < length tm -> length (nth k tm []) = dim w * dim w / 4 ->
  exists tm' v', Trail w r k tm = Ok tm' /\
    (forall j, j <> k -> nth j tm' [] = nth j tm []) /\
    (forall i, i < dim w * dim w / 4 -> nth i (nth k tm' []) 0%N = (r i mod 16)%N) /\
    InvS_basis e w t0 v tm' k = Ok v' /\ wfM w v' /\
    inverse_of (dim w) (fprod (dim w) (dim w * dim w / 4)
      (fun i => mbit w (nth (N.to_nat (r i mod 16)) (basis w) []))) (mbit w v').
Proof.
  intros e w r t0 v tm k Hw Ht Hv Hk Hl. apply in_upto64 in Hw.
  assert (Hw' : upto128 w) by (left; exact Hw). rewrite <- (nmul_spec w Hw') in *.
  pose proof (Trail_wp w r k tm Hk Hl) as W.
  destruct (Trail w r k tm) as [tm'|]; [|contradiction W]. cbn [wp] in W.
  destruct W as (L & J & Lk & D).
  assert (Hk' : k < length tm') by lia.
  assert (Hd : forall i, i < nmul w -> (nth i (nth k tm' []) 0 < 16)%N).
  { intros i Hi. rewrite D by auto. pose proof (draw_lt r i). lia. }
  pose proof (InvS_basis_wp e w t0 v tm' k Hw' Ht Hv Hk' Lk Hd) as W.
  destruct (InvS_basis e w t0 v tm' k) as [v'|] eqn:ES; [|contradiction W]. cbn [wp] in W.
  destruct W as [H1 H2]. exists tm', v'. split; [reflexivity|]. split; [exact J|].
  split; [exact D|]. split; [exact ES|]. split; [exact H1|].
  assert (FE : feq (dim w)
    (fprod (dim w) (nmul w)
      (fun i => along w (basis_inv w) (fun i => nth i (nth k tm' []) 0%N) (nmul w - 1 - i)))
    (fprod (dim w) (nmul w) (fun i => along w (basis_inv w) (draw r) (nmul w - 1 - i)))).
  { apply fprod_ext. intros i Hi. unfold along. rewrite D by lia. reflexivity. }
  rewrite H2, FE. exact (along_inverse w (draw r) Hw (draw_lt r)).
Qed.

(** C58: Matrixpair returns a matrix, the product of the drawn ones, and its inverse *)
Lemma C58_Matrixpair_main : forall e w r t0 u0 m v seed, In w [W8; W16; W32; W64] ->
  shapeM w t0 -> shapeM w u0 -> shapeM w m -> shapeM w v -> seed <> (2 ^ 31 - 1)%N ->
  exists m' v', Matrixpair_basis e w r t0 u0 m v seed = Ok (m', v', ((seed + 1) mod 2 ^ 32)%N) /\
    wfM w m' /\ wfM w v' /\
    feq (dim w) (mbit w m') (fprod (dim w) (dim w * dim w / 4)
      (fun i => mbit w (nth (N.to_nat (r i mod 16)) (basis w) []))) /\
    inverse_of (dim w) (mbit w m') (mbit w v').
Proof.
  intros e w r t0 u0 m v seed Hw Ht Hu Hm Hv Hs. apply in_upto64 in Hw.
  assert (Hw' : upto128 w) by (left; exact Hw).
  pose proof (Matrixpair_basis_wp e w r t0 u0 m v seed Hw' Ht Hu Hm Hv Hs) as W.
  destruct (Matrixpair_basis e w r t0 u0 m v seed) as [[[m' v'] s']|]; [|contradiction W].
  cbn [wp] in W. destruct W as (-> & H1 & H2 & H3 & H4). exists m', v'. split; [reflexivity|].
  split; [exact H1|]. split; [exact H2|]. split.
  - rewrite <- (nmul_spec w Hw'). exact H3.
  - rewrite H3, H4. apply along_inverse; auto using draw_lt.
Qed.
(** C58: the increment of randseed = INT_MAX is undefined *)
Lemma C58_seed_main : forall e w r t0 u0 m v, shapeM w t0 -> shapeM w u0 ->
  InvT_basis e w r t0 m (2 ^ 31 - 1) = UB /\ Matrixpair_basis e w r t0 u0 m v (2 ^ 31 - 1) = UB.
Proof.
  intros e w r t0 u0 m v Ht Hu. unfold InvT_basis, Matrixpair_basis.
  rewrite !identityM_ok by auto. split; reflexivity.
Qed.
Example C58_ex_main : Matrixpair_basis LE W8 (fun i => N.of_nat (7 * i + 3))
    (zeros W8) (zeros W8) (zeros W8) (zeros W8) 5 =
    Ok ([[5]; [164]; [68]; [6]; [166]; [78]; [180]; [128]],
        [[1]; [120]; [25]; [66]; [108]; [88]; [72]; [216]], 6)%N /\ shapeM W64 (zeros W64) /\ length (nth 3 (repeat (repeat 0%N 16) 100) []) = 8 * 8 / 4.
Proof.
  split; [vm_compute; reflexivity|]. split; [apply shape_zeros|reflexivity].
Qed.

(** ** 128 bits *)

Lemma along128_invertible : forall d, (forall i, N.to_nat (d i) < 16) ->
  (invertible 128 (fprod 128 (nmul W128) (along W128 (basis W128) d)) <->
   forall i, i < nmul W128 -> d i = 14%N).
Proof.
  intros d Hd. split.
  - intros HI i Hi. destruct (N.eq_dec (d i) 14) as [E|E]; auto. exfalso.
    destruct (fprod_singular 128 (nmul W128) (along W128 (basis W128) d)) as [x Hx].
    + intros j _. unfold along. destruct (Nat.eq_dec (N.to_nat (d j)) 14) as [->|F].
      * left. exists (mbit W128 inv128_14). exact inv_basis_14.
      * right. apply kill_basis; auto.
    + destruct (kill_basis (N.to_nat (d i)) (Hd i)) as [x Hx]; [lia|]. exists i, x. split; auto.
    + exact (null_singular _ _ _ Hx HI).
  - intros H. apply fprod_invertible. intros i Hi. unfold along. rewrite (H i Hi).
    exists (mbit W128 inv128_14). exact inv_basis_14.
Qed.
Lemma along128_inv_singular : forall d, (forall i, i < nmul W128 -> N.to_nat (d i) < 16) ->
  ~ invertible 128 (fprod 128 (nmul W128) (fun i => along W128 (basis_inv W128) d (nmul W128 - 1 - i))).
Proof.
  intros d Hd HI.
  destruct (fprod_singular 128 (nmul W128)
    (fun i => along W128 (basis_inv W128) d (nmul W128 - 1 - i))) as [x Hx].
  - intros j Hj. right. apply kill_basis_inv. apply Hd. lia.
  - assert (P : 0 < nmul W128) by (rewrite nmul_spec by (right; reflexivity); vm_compute; lia).
    destruct (kill_basis_inv (N.to_nat (d (nmul W128 - 1 - 0)))) as [x Hx]; [apply Hd; lia|].
    exists 0, x. split; auto.
  - exact (null_singular _ _ _ Hx HI).
Qed.

(** C59: InvTMatM128 returns the product of 4096 drawn matrices; it is invertible only if every
    one of the draws selects entry 14 *)
Lemma C59_InvTMat128_main : forall e r t0 m seed,
  shapeM W128 t0 -> shapeM W128 m -> seed <> (2 ^ 31 - 1)%N ->
  exists m', InvT_basis e W128 r t0 m seed = Ok (m', ((seed + 1) mod 2 ^ 32)%N) /\
    wfM W128 m' /\
    (invertible 128 (mbit W128 m') <-> forall i, i < 128 * 128 / 4 -> (r i mod 16 = 14)%N).
Proof.
  intros e r t0 m seed Ht Hm Hs. assert (Hw : upto128 W128) by (right; reflexivity).
  pose proof (InvT_basis_wp e W128 r t0 m seed Hw Ht Hm Hs) as W.
  destruct (InvT_basis e W128 r t0 m seed) as [[m' s']|]; [|contradiction W]. cbn [wp] in W.
  destruct W as (-> & H1 & H2). exists m'. split; [reflexivity|]. split; [exact H1|].
  rewrite <- (nmul_spec W128 Hw : nmul W128 = 128 * 128 / 4).
  pose proof (along128_invertible (draw r) (draw_lt r)) as A.
  split.
  - intros [B HB]. apply A. exists B. change 128 with (dim W128). rewrite <- H2. exact HB.
  - intros H. destruct (proj2 A H) as [B HB]. exists B. change 128 with (dim W128). rewrite H2. exact HB.
Qed.

(** C59: InvSMatM128 is singular for every trail, also for one recorded by TrailM128 *)
Lemma C59_InvSMat128_main : forall e t0 v tm k,
  shapeM W128 t0 -> shapeM W128 v -> k < length tm -> length (nth k tm []) = 128 * 128 / 4 ->
  (forall i, i < 128 * 128 / 4 -> (nth i (nth k tm []) 0 < 16)%N) ->
  exists v', InvS_basis e W128 t0 v tm k = Ok v' /\ wfM W128 v' /\ ~ invertible 128 (mbit W128 v').
Proof.
  intros e t0 v tm k Ht Hv Hk Hl Hd. assert (Hw : upto128 W128) by (right; reflexivity).
  rewrite <- (nmul_spec W128 Hw : nmul W128 = 128 * 128 / 4) in *.
  pose proof (InvS_basis_wp e W128 t0 v tm k Hw Ht Hv Hk Hl Hd) as W.
  destruct (InvS_basis e W128 t0 v tm k) as [v'|]; [|contradiction W]. cbn [wp] in W.
  destruct W as [H1 H2]. exists v'. split; [reflexivity|]. split; [exact H1|].
  intros [B HB]. apply (along128_inv_singular (fun i => nth i (nth k tm []) 0%N)).
  - intros i Hi. specialize (Hd i Hi). lia.
  - exists B. change 128 with (dim W128). rewrite <- H2. exact HB.
Qed.

(** C59: the second matrix of MatrixpairM128 is always singular, so the pair never consists of
    a matrix and its inverse *)
Lemma C59_Matrixpair128_main : forall e r t0 u0 m v seed,
  shapeM W128 t0 -> shapeM W128 u0 -> shapeM W128 m -> shapeM W128 v -> seed <> (2 ^ 31 - 1)%N ->
  exists m' v', Matrixpair_basis e W128 r t0 u0 m v seed = Ok (m', v', ((seed + 1) mod 2 ^ 32)%N) /\
    wfM W128 m' /\ wfM W128 v' /\
    (invertible 128 (mbit W128 m') <-> forall i, i < 128 * 128 / 4 -> (r i mod 16 = 14)%N) /\
    ~ invertible 128 (mbit W128 v') /\ ~ inverse_of 128 (mbit W128 m') (mbit W128 v').
Proof.
  intros e r t0 u0 m v seed Ht Hu Hm Hv Hs. assert (Hw : upto128 W128) by (right; reflexivity).
  pose proof (Matrixpair_basis_wp e W128 r t0 u0 m v seed Hw Ht Hu Hm Hv Hs) as W.
  destruct (Matrixpair_basis e W128 r t0 u0 m v seed) as [[[m' v'] s']|]; [|contradiction W].
  cbn [wp] in W. destruct W as (-> & H1 & H2 & H3 & H4). exists m', v'. split; [reflexivity|].
  split; [exact H1|]. split; [exact H2|].
  rewrite <- (nmul_spec W128 Hw : nmul W128 = 128 * 128 / 4).
  assert (S : ~ invertible 128 (mbit W128 v')).
  { intros [B HB]. apply (along128_inv_singular (draw r)); [intros; apply draw_lt|].
    exists B. change 128 with (dim W128). rewrite <- H4. exact HB. }
  pose proof (along128_invertible (draw r) (draw_lt r)) as A.
  split; [split|split; [exact S|]].
  - intros [B HB]. apply A. exists B. change 128 with (dim W128). rewrite <- H3. exact HB.
  - intros H. destruct (proj2 A H) as [B HB]. exists B. change 128 with (dim W128). rewrite H3. exact HB.
  - intros [I1 I2]. apply S. exists (mbit W128 m'). split; assumption.
Qed.
(** C59: entry k of the second 128-bit table is not the inverse of entry k of the first, for
    every k *)
Lemma C59_tables_main : forall k, k < 16 ->
  ~ inverse_of 128 (mbit W128 (nth k (basis W128) [])) (mbit W128 (nth k (basis_inv W128) [])).
Proof.
  intros k Hk [I1 I2]. destruct (kill_basis_inv k Hk) as [x Hx].
  apply (null_singular _ _ _ Hx). exists (mbit W128 (nth k (basis W128) [])). split; assumption.
Qed.
(** C59: the claim in the comment of InvTMatM128, "generate 128*128 invertible matrix", fails
    for example if every draw is 0 *)
Lemma C59_invertible_refuted_main : exists e r t0 m seed m' seed',
  shapeM W128 t0 /\ shapeM W128 m /\ InvT_basis e W128 r t0 m seed = Ok (m', seed') /\
  ~ invertible 128 (mbit W128 m').
Proof.
  destruct (C59_InvTMat128_main LE (fun _ => 0%N) (zeros W128) (zeros W128) 0%N)
    as (m' & E & _ & H); [apply shape_zeros|apply shape_zeros|discriminate|].
  exists LE, (fun _ => 0%N), (zeros W128), (zeros W128), 0%N, m', ((0 + 1) mod 2 ^ 32)%N.
  split; [apply shape_zeros|]. split; [apply shape_zeros|]. split; [exact E|].
  intros HI. assert (P : 0 < 128 * 128 / 4) by (apply Nat.div_str_pos; lia).
  discriminate (proj1 H HI 0 P).
Qed.
Example C59_ex_main : exists e t0 m m' seed', shapeM W128 t0 /\ shapeM W128 m /\
  InvT_basis e W128 (fun _ => 30%N) t0 m 0 = Ok (m', seed') /\ invertible 128 (mbit W128 m').
Proof.
  destruct (C59_InvTMat128_main LE (fun _ => 30%N) (zeros W128) (zeros W128) 0%N)
    as (m' & E & _ & H); [apply shape_zeros|apply shape_zeros|discriminate|].
  exists LE, (zeros W128), (zeros W128), m', ((0 + 1) mod 2 ^ 32)%N.
  split; [apply shape_zeros|]. split; [apply shape_zeros|]. split; [exact E|]. apply H.
  intros; reflexivity.
Qed.
