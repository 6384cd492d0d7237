(** Calls with overlapping arguments. *)
From Coq Require Import Arith NArith List Bool Lia Setoid Morphisms.
From Verif Require Import Base Tables Model Spec LinAlg Mem Cons Rand Mul Elim GenPair Com Affine
  ModelAlias.
Import ListNotations.

Lemma genMatpair_same_wp : forall e w m s, shapeM w m ->
  wp (genMatpair_same e w m s) (fun r =>
    wfM w (fst r) /\
    (invertible (dim w) (mbit w (drawn e w s)) -> fst r = drawn e w s) /\
    (~ invertible (dim w) (mbit w (drawn e w s)) -> feq (dim w) (mbit w (fst r)) fid)).
Proof.
  intros e w m s Hm. unfold genMatpair_same. cbv zeta.
  rewrite identityM_ok by auto. cbn [bind]. rewrite identityM_ok by apply shape_mk. cbn [bind].
  rewrite randM_ok by apply typed_fresh_m. cbn [bind].
  fold (drawn e w s). set (tmp := drawn e w s).
  assert (Htmp : wfM w tmp) by apply wf_rand.
  rewrite copyM_ok by auto using shape_fresh_m, wfM_shape. cbn [bind].
  set (id := mk w (id_word w)). set (s1 := adv (reseed (reseed s)) (draws w * (dim w * nw w))).
  apply wp_bind. apply wp_g_forward with (A := mbit w tmp).
  - split; [|split].
    + split; [exact Htmp|]. split; [apply wf_id|]. split; [constructor|]. apply mbit_id.
    + apply (rowtr_ext (dim w) _ fid _ (mbit w tmp));
        [symmetry; apply mbit_id|reflexivity|apply rowtr_id].
    + intros r k H; lia.
  - reflexivity.
  - reflexivity.
  - intros g s2 (HG & HR & Hz) Htrue Hfalse Hlen. destruct HG as (Gt & Gv & Gtr & Gb).
    destruct (g_inv g) eqn:Einv.
    + destruct (Htrue eq_refl) as [Hp HI].
      apply wp_bind. apply wp_back_subst with (A := mbit w tmp); auto.
      intros m' v' Hm' Hv' [HV HR'] Hid. apply wp_bind. cbn [snd].
      rewrite copyM_ok; [|apply wfM_shape; exact Htmp|apply wfM_shape; exact Hv'].
      apply wp_ok. apply wp_ok. cbn [fst].
      split; [exact Htmp|]. split; [auto|contradiction].
    + specialize (Hfalse eq_refl).
      apply wp_bind. apply wp_g_back; [repeat (split; auto)|exact Hlen|].
      intros g' (Gt' & Gv' & Gtr' & Gb') Hl'.
      apply wp_bind. apply wp_replay; [exact Gv'|exact Gtr'|].
      intros m' Hm' HB. apply wp_ok. cbn [fst].
      split; [exact Hm'|]. split; [contradiction|]. intros _.
      rewrite HB. rewrite rep_as_mul by auto. rewrite Gb'. apply trail_inverse; auto.
Qed.

Lemma drawn_randM : forall e w s,
  randM e w (fresh_m w) (reseed s) = Ok (drawn e w s, adv (reseed (reseed s)) (draws w * (dim w * nw w))).
Proof. intros. apply randM_ok, typed_fresh_m. Qed.

Lemma nth_upd : forall A (l : list A) i x k d, nth k (upd l i x) d =
  if (Nat.eqb k i && Nat.ltb i (length l))%bool then x else nth k l d.
Proof.
  induction l as [|a l IH]; intros i x k d.
  - simpl. destruct k, i; simpl; rewrite ?andb_false_r; reflexivity.
  - destruct i, k; simpl; auto. rewrite IH. reflexivity.
Qed.
Lemma length_upd' : forall A (l : list A) i x, length (upd l i x) = length l.
Proof. induction l; destruct i; simpl; intros; auto. Qed.

Lemma affineU128_mem_ok : forall e f p q h y0 y1,
  p + 1 < length h -> q + 1 < length h ->
  affineU e W128 f [nth p h 0%N; nth (p + 1) h 0%N] = Ok [y0; y1] ->
  affineU128_mem e f p q h = Ok (upd (upd h q y0) (q + 1) y1).
Proof.
  intros e f p q h y0 y1 Hp Hq E. unfold affineU128_mem.
  assert (G : forall i, i < length h -> aget h i = Ok (nth i h 0%N)).
  { intros i Hi. unfold aget. rewrite (nth_error_nth' h 0%N Hi). reflexivity. }
  rewrite !G by lia. cbn [bind]. revert E. generalize (nth p h 0%N) (nth (p + 1) h 0%N).
  intros x0 x1 E. unfold affineU in E. cbn [nw] in E.
  change (for_up 0 2 (fun k v => x <- aget [x0; x1] k;; aset v k x) (fresh_v W128))
    with (Ok [x0; x1]) in E. cbn [bind] in E.
  destruct (MatMulVec e W128 (amat f) [x0; x1] (fresh_v W128)) as [ans|]; [|discriminate E].
  change (fresh_v W128) with [0%N; 0%N] in E.
  cbn [bind] in E |- *. unfold for_up in E. cbn [Nat.sub up_n] in E.
  destruct (aget ans 0) as [a0|]; [|discriminate E]. cbn [bind] in E |- *.
  destruct (aget (avec f) 0) as [c0|]; [|discriminate E]. cbn [bind] in E |- *.
  cbn [aset length Nat.ltb Nat.leb upd bind] in E. 
  unfold aset at 1. assert (HL : Nat.ltb q (length h) = true) by (apply Nat.ltb_lt; lia).
  rewrite HL. cbn [bind].
  destruct (aget ans 1) as [a1|]; [|discriminate E]. cbn [bind] in E |- *.
  destruct (aget (avec f) 1) as [c1|]; [|discriminate E]. cbn [bind] in E |- *.
  unfold aset in E. cbn [length Nat.ltb Nat.leb upd bind] in E. injection E as <- <-.
  unfold aset. rewrite length_upd'.
  assert (HL2 : Nat.ltb (q + 1) (length h) = true) by (apply Nat.ltb_lt; lia).
  rewrite HL2. reflexivity.
Qed.
