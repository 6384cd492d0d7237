(** C64: how many different matrices the library can generate. *)
From Coq Require Import Arith NArith List Bool Lia.
From Verif Require Import Base Tables Model Spec LinAlg Mem Cons Mul Rand GenPair Main1 Entropy.
Import ListNotations.

(** C64: over all processes, seeds, clocks and generator states randM has at most 2^32 different
    results. *)
Lemma C64_randM_count_main : forall e w (L : list mat), NoDup L ->
  (forall a, In a L -> exists m s s', typedM w m /\ (w_seed s < 2 ^ 32)%N /\ randM e w m s = Ok (a, s')) ->
  (N.of_nat (length L) <= 2 ^ 32)%N.
Proof.
  intros e w L HN H. apply (count_image _ (resM e w)); auto. intros a Ha.
  destruct (H a Ha) as (m & s & s' & Hm & Hs & E). exists (key0 s). split; [apply key0_lt; auto|].
  apply (resM_spec e w m s a s'); auto.
Qed.
(** C64: genMatpair has at most 2^32 different results. *)
Lemma C64_genMatpair_count_main : forall e w (L : list (mat * mat)), NoDup L ->
  (forall p, In p L -> exists m v s s', shapeM w m /\ shapeM w v /\ genMatpair e w m v s = Ok (p, s')) ->
  (N.of_nat (length L) <= 2 ^ 32)%N.
Proof.
  intros e w L HN H. apply (count_image _ (resP e w)); auto. intros p Hp.
  destruct (H p Hp) as (m & v & s & s' & Hm & Hv & E). exists (key1 s). split; [apply key1_lt|].
  apply (resP_spec e w m v s p s'); auto.
Qed.
(** C64: genaffinepair has at most 2^64 different results. *)
Lemma C64_genaffinepair_count_main : forall e w (L : list (aff * aff)), NoDup L ->
  (forall p, In p L -> exists f g s s', shapeM w (amat f) /\ typedV w (avec f) /\ shapeA w g /\
     genaffinepair e w f g s = Ok (p, s')) ->
  (N.of_nat (length L) <= 2 ^ 64)%N.
Proof.
  intros e w L HN H. change (2 ^ 64)%N with (2 ^ 32 * 2 ^ 32)%N.
  apply (count_image2 _ (resA e w)); auto; [reflexivity|]. intros p Hp.
  destruct (H p Hp) as (f & g & s & s' & Hf & Hv & Hg & E). exists (key1 s), (key2 s).
  split; [apply key1_lt|]. split; [apply key2_lt|]. apply (resA_spec e w f g s p s'); auto.
Qed.
(** C64: hence, from 8 bits on, there are invertible matrices that genMatpair never returns, neither
    as the matrix nor as the inverse, and matrices that randM never returns. *)
Lemma C64_missing_main : forall e w, w <> W4 ->
  (exists a, wfM w a /\ invertible (dim w) (mbit w a) /\
     forall m v s b s', shapeM w m -> shapeM w v -> genMatpair e w m v s <> Ok ((a, b), s')) /\
  (exists a, wfM w a /\ invertible (dim w) (mbit w a) /\
     forall m v s b s', shapeM w m -> shapeM w v -> genMatpair e w m v s <> Ok ((b, a), s')) /\
  (exists a, wfM w a /\ invertible (dim w) (mbit w a) /\
     forall m s s', typedM w m -> (w_seed s < 2 ^ 32)%N -> randM e w m s <> Ok (a, s')).
Proof.
  intros e w Hw. split; [|split].
  - destruct (outside w (fun x => fst (resP e w x)) Hw) as (a & Wa & Ia & Ha). exists a. split; [auto|]. split; [auto|].
    intros m v s b s' Hm Hv E. apply (Ha (key1 s) (key1_lt s)). rewrite <- (resP_spec e w m v s (a, b) s'); auto.
  - destruct (outside w (fun x => snd (resP e w x)) Hw) as (a & Wa & Ia & Ha). exists a. split; [auto|]. split; [auto|].
    intros m v s b s' Hm Hv E. apply (Ha (key1 s) (key1_lt s)). rewrite <- (resP_spec e w m v s (b, a) s'); auto.
  - destruct (outside w (resM e w) Hw) as (a & Wa & Ia & Ha). exists a. split; [auto|]. split; [auto|].
    intros m s s' Hm Hs E. apply (Ha (key0 s) (key0_lt s Hs)). apply (resM_spec e w m s a s'); auto.
Qed.

(** C64: the hypotheses are met by lists with different matrices: two seeds, two results. *)
Example C64_ex_main : exists a b, a <> b /\ NoDup [a; b] /\
  forall p, In p [a; b] -> exists m v s s', shapeM W8 m /\ shapeM W8 v /\ genMatpair LE W8 m v s = Ok (p, s').
Proof.
  assert (X : forall x, exists s', genMatpair LE W8 (fresh_m W8) (fresh_m W8) (cw 0 x 0) = Ok (resP LE W8 x, s')).
  { intros x. destruct (wp_exists _ _ _ (genMatpair_wp LE W8 (fresh_m W8) (fresh_m W8) (cw 0 x 0) (shape_fresh_m _) (shape_fresh_m _)))
      as ([[a b] s'] & E & _).
    exists s'. unfold resP. rewrite E. reflexivity. }
  assert (N : resP LE W8 5 <> resP LE W8 6).
  { intros H. apply (f_equal (fun p => fst p)) in H. revert H. vm_compute. discriminate. }
  exists (resP LE W8 5), (resP LE W8 6). split; [exact N|]. split.
  { constructor; [intros [H|[]]; auto|]. constructor; [intros []|constructor]. }
  intros p [<-|[<-|[]]].
  - destruct (X 5%N) as (s' & E). exists (fresh_m W8), (fresh_m W8), (cw 0 5 0), s'. repeat split; auto; repeat constructor.
  - destruct (X 6%N) as (s' & E). exists (fresh_m W8), (fresh_m W8), (cw 0 6 0), s'. repeat split; auto; repeat constructor.
Qed.
