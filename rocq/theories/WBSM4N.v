(** The white-box tables of test/WBSM4/NTL compute SM4. *)
From Coq Require Import Arith NArith ZArith List Bool Lia ZifyNat Setoid Morphisms.
From Verif Require Model Cons.
From Verif Require Import Base Spec LinAlg ModelSM4 SpecSM4 SM4 WBSM4.
From Verif Require Import SpecGf2 Gf2a Gf2b WBSM4M WBSM4M2 ModelNtl SpecNtl Ntl1 Ntl2 ModelSM4N.
Import ListNotations.
Local Open Scope nat_scope.

(** [f] acts on the bytes as [d 0] to [d 3] *)
Lemma join_action : forall f (d : nat -> gaff),
  feq 32 (gat (glin f)) (diag4 (gat (glin (d 0))) (gat (glin (d 1))) (gat (glin (d 2))) (gat (glin (d 3)))) ->
  (forall q c, q < 4 -> c < 8 -> gv (gtra f) (8 * q + c) = gv (gtra (d q)) c) ->
  forall b0 b1 b2 b3, (b0 < 256)%N -> (b1 < 256)%N -> (b2 < 256)%N -> (b3 < 256)%N ->
  affine_g 32 f (word_of b0 b1 b2 b3) =
  word_of (affine_g 8 (d 0) b0) (affine_g 8 (d 1) b1) (affine_g 8 (d 2) b2) (affine_g 8 (d 3) b3).
Proof.
  intros f d HL HV b0 b1 b2 b3 H0 H1 H2 H3.
  assert (B : forall q b, (affine_g 8 (d q) b < 256)%N) by (intros; apply (ag_lt 8)).
  apply (bits_ext 32); [apply ag_lt|apply word_bound; apply B|].
  rewrite ag_bits. intros i Hi.
  assert (D : i = 8 * (i / 8) + i mod 8) by (apply Nat.div_mod; lia).
  assert (Q : i / 8 < 4) by (apply Nat.div_lt_upper_bound; lia).
  assert (M : i mod 8 < 8) by (apply Nat.mod_upper_bound; lia).
  set (q := i / 8) in *. set (c := i mod 8) in *. clearbody q c. subst i.
  rewrite (affine_f_ext 32 _ _ _ _ _ _ HL (reflexivity _) (reflexivity _) _ Hi). unfold affine_f, vadd.
  rewrite (diag4_app (fun k => gat (glin (d k)))) by assumption. rewrite HV by assumption.
  rewrite bits_word by (auto; apply B).
  assert (E : nth q [affine_g 8 (d 0) b0; affine_g 8 (d 1) b1; affine_g 8 (d 2) b2; affine_g 8 (d 3) b3] 0%N =
              affine_g 8 (d q) (nth q [b0; b1; b2; b3] 0%N)).
  { do 4 (destruct q as [|q]; [reflexivity|]). lia. }
  rewrite E. rewrite ag_bits by exact M. unfold affine_f, vadd. f_equal.
  apply fapp_proper; [reflexivity| |exact M]. intros k Hk. apply bits_word; assumption.
Qed.

(** ** The random maps *)

Definition naff : gaff := mkgaff (gdims 0 0) [].
Definition eh (E : list (list (list gaff))) (i d k : nat) : gaff := at3 naff E i d k.

Record nrow_good (P : list (list gaff)) (E : list (list (list gaff))) (Q : list (list gaff)) (r : nat) : Prop :=
  { ng_P : pairG 32 (at2 naff P r 0) (at2 naff P r 1);
    ng_E : forall j, j < 4 -> pairG 8 (eh E r j 0) (eh E r j 1);
    ng_EC : okg 32 (eh E r 4 1);
    ng_ECa : forall x, (x < 2 ^ 32)%N -> affine_g 32 (eh E r 4 1) x =
      word_of (affine_g 8 (eh E r 0 1) (byte x 3)) (affine_g 8 (eh E r 1 1) (byte x 2))
              (affine_g 8 (eh E r 2 1) (byte x 1)) (affine_g 8 (eh E r 3 1) (byte x 0));
    ng_Q : pairG 32 (at2 naff Q r 0) (at2 naff Q r 1) }.

Definition nglob_dims (g : nglob) : Prop :=
  dims2 36 2 (kP g) /\ dims3 36 5 2 (kE g) /\ dims2 36 2 (kQ g).

Ltac w2 n m := apply wp_bind; apply (wp_set2 _ naff n m); [assumption|lia|lia|].
Ltac w3 n m l := apply wp_bind; apply (wp_set3 _ naff n m l); [assumption|lia|lia|lia|].
Ltac g2 n m := apply wp_bind; apply (wp_get2 _ naff n m); [assumption|lia|lia|].
Ltac g3 n m l := apply wp_bind; apply (wp_get3 _ naff n m l); [assumption|lia|lia|lia|].

Lemma gen_pair_wp : forall n nt fuel s, ntl_ok nt ->
  wp (RANDOM_AFFINE_MAT fuel nt n s) (fun o => match o with Some (f, g, s') => pairG n f g | None => True end).
Proof.
  intros n nt fuel s HN. unfold RANDOM_AFFINE_MAT. apply wp_bind. eapply wp_mono; [apply gen5_sound; exact HN|].
  intros [[[[[X Y] V] W] s']|]; [|intros _; apply wp_ok; exact I]. intros [H _]. apply wp_ok. exact H.
Qed.
Lemma gen_pair_some : forall n nt s, ntl_ok nt -> always (trand nt) n ->
  exists f0 f g s', pairG n f g /\ forall k, f0 <= k -> RANDOM_AFFINE_MAT k nt n s = Ok (Some (f, g, s')).
Proof.
  intros n nt s HN HA. destruct (gen5_complete nt HN n s HA) as (f0 & X & Y & V & W & s' & HP & E).
  exists f0, (mkgaff X V), (mkgaff Y W), s'. split; [exact HP|]. intros k Hk. unfold RANDOM_AFFINE_MAT. rewrite E by exact Hk. reflexivity.
Qed.

Lemma csl_small : forall i, i < 32 -> (nth i wb_csl 0 < 2 ^ 32)%N.
Proof.
  intros i Hi. assert (C : forallb (fun x => N.ltb x (2 ^ 32)) wb_csl = true) by (vm_compute; reflexivity).
  rewrite forallb_forall in C. apply N.ltb_lt, C, nth_In. exact Hi.
Qed.

Lemma gen_E_wp : forall fuel nt i E s, ntl_ok nt -> i < 36 -> dims3 36 5 2 E ->
  wp (n_gen_E fuel nt i E s) (fun o => match o with
    | None => True
    | Some (E', s') => dims3 36 5 2 E' /\ (forall r j k, r <> i -> eh E' r j k = eh E r j k) /\
        forall j, j < 4 -> pairG 8 (eh E' i j 0) (eh E' i j 1)
    end).
Proof.
  intros fuel nt i E s HE Hi DE. unfold n_gen_E.
  apply wp_for_up with (I := fun n (o : option (list (list (list gaff)) * nat)) => match o with
    | None => True
    | Some (E', s') => dims3 36 5 2 E' /\ (forall r j k, r <> i -> eh E' r j k = eh E r j k) /\
        forall j, j < n -> pairG 8 (eh E' i j 0) (eh E' i j 1)
    end).
  - lia.
  - split; [exact DE|]. split; [reflexivity|]. intros; lia.
  - intros j o _ Hj Ho. destruct o as [[E1 s1]|]; [|apply wp_ok; exact I]. destruct Ho as (D1 & F1 & G1).
    apply wp_bind. eapply wp_mono; [apply (gen_pair_wp 8); auto|].
    intros [[[f fi] s2]|] Hp; [|apply wp_ok; exact I].
    w3 36 5 2. intros E2 D2 A2 _. w3 36 5 2. intros E3 D3 A3 _. apply wp_ok. split; [exact D3|]. split.
    + intros r j' k Hr. unfold eh. rewrite A3, A2. destruct (Nat.eqb_spec r i); [lia|]. apply F1. exact Hr.
    + intros j' Hj'. unfold eh. rewrite !A3, !A2, !Nat.eqb_refl. cbn [Nat.eqb andb].
      destruct (Nat.eqb_spec j' j) as [->|]; cbn [andb]; [exact Hp|]. apply G1. lia.
  - intros o Ho. exact Ho.
Qed.

Lemma join_E_wp : forall nt i E, ntl_ok nt -> i < 36 -> dims3 36 5 2 E ->
  (forall j, j < 4 -> pairG 8 (eh E i j 0) (eh E i j 1)) ->
  wp (n_join_E nt i E) (fun E' => dims3 36 5 2 E' /\ (forall r j k, r <> i -> eh E' r j k = eh E r j k) /\
    (forall j k, j < 4 -> eh E' i j k = eh E i j k) /\ okg 32 (eh E' i 4 1) /\
    forall x, (x < 2 ^ 32)%N -> affine_g 32 (eh E' i 4 1) x =
      word_of (affine_g 8 (eh E i 0 1) (byte x 3)) (affine_g 8 (eh E i 1 1) (byte x 2))
              (affine_g 8 (eh E i 2 1) (byte x 1)) (affine_g 8 (eh E i 3 1) (byte x 0))).
Proof.
  intros nt i E HE Hi DE HP. unfold n_join_E.
  assert (HL : forall j, j < 4 -> gok 8 8 (glin (eh E i j 0))) by (intros j Hj; apply (HP j Hj)).
  assert (HV : forall j, j < 4 -> length (gtra (eh E i j 0)) = 8) by (intros j Hj; destruct (HP j Hj) as ((_ & K) & _); exact K).
  assert (HI : forall j, j < 4 -> invertible 8 (gat (glin (eh E i j 0)))) by (intros j Hj; apply (HP j Hj)).
  g3 36 5 2. g3 36 5 2. fold (eh E i 0 0) (eh E i 1 0).
  apply wp_bind. apply (gwp_diag 8 8 8 8); [apply HL; lia|apply HL; lia|lia|lia|]. intros T HT FT.
  g3 36 5 2. fold (eh E i 2 0). apply wp_bind. apply (gwp_diag 16 16 8 8); [exact HT|apply HL; lia|lia|lia|]. intros S HS FS.
  g3 36 5 2. fold (eh E i 3 0). apply wp_bind. apply (gwp_diag 24 24 8 8); [exact HS|apply HL; lia|lia|lia|]. intros L HL4 FL.
  assert (FD : feq 32 (gat L) (diag4 (gat (glin (eh E i 0 0))) (gat (glin (eh E i 1 0))) (gat (glin (eh E i 2 0))) (gat (glin (eh E i 3 0))))).
  { intros a b Ha Hb. rewrite FL by assumption. unfold diag4. apply (bd_ext 24 8); try assumption; [|reflexivity].
    intros a' b' Ha' Hb'. rewrite FS by assumption. apply (bd_ext 16 8); try assumption. reflexivity. }
  assert (IL : invertible 32 (gat L)).
  { apply (invertible_ext 32 _ _ (symmetry FD)). apply diag4_invertible; apply HI; lia. }
  apply wp_bind. apply (wp_ginv nt 32); auto. intros Li HLi HIi.
  apply wp_bind. apply wp_for_up with (I := fun n v => length v = 32 /\
    forall j, j < n -> gv v j = gv (gtra (eh E i (j / 8) 0)) (j mod 8)).
  { lia. } { split; [reflexivity|]. intros; lia. }
  { intros j v _ Hj [Lv Hv]. assert (j / 8 < 4) by (apply Nat.div_lt_upper_bound; lia).
    assert (j mod 8 < 8) by (apply Nat.mod_upper_bound; lia).
    apply wp_bind; apply (wp_get3 _ naff 36 5 2); [assumption|lia|lia|lia|]. fold (eh E i (j / 8) 0).
    apply wp_bind. apply (wp_vget 8); auto.
    apply (wp_vput 32); auto. intros v' L' E'. split; [exact L'|]. intros a Ha. rewrite E'.
    destruct (Nat.eqb_spec a j) as [->|]; [reflexivity|]. apply Hv. lia. }
  intros v [Hv Ev]. apply wp_bind. apply (wp_gmulv 32 32); auto. intros w Hw Ew.
  w3 36 5 2. intros E1 D1 A1 _. apply (wp_set3 _ naff 36 5 2); [assumption|lia|lia|lia|]. intros E2 D2 A2 _.
  split; [exact D2|]. split; [|split; [|split]].
  - intros r j k Hr. unfold eh. rewrite A2, A1. destruct (Nat.eqb_spec r i); [lia|]. reflexivity.
  - intros j k Hj. unfold eh. rewrite A2, A1. destruct (Nat.eqb_spec j 4); [lia|]. cbn [andb]. rewrite !andb_false_r. reflexivity.
  - unfold eh. rewrite A2, !Nat.eqb_refl. cbn [andb]. split; assumption.
  - unfold eh at 1. rewrite A2, !Nat.eqb_refl. cbn [andb].
    intros x Hx. set (h := mkgaff Li w). set (h0 := mkgaff L v).
    assert (J : forall b0 b1 b2 b3, (b0 < 256)%N -> (b1 < 256)%N -> (b2 < 256)%N -> (b3 < 256)%N ->
      affine_g 32 h0 (word_of b0 b1 b2 b3) = word_of (affine_g 8 (eh E i 0 0) b0) (affine_g 8 (eh E i 1 0) b1)
        (affine_g 8 (eh E i 2 0) b2) (affine_g 8 (eh E i 3 0) b3)).
    { apply (join_action h0 (fun d => eh E i d 0)); [exact FD|]. intros q c Hq Hc. cbn [gtra h0]. rewrite Ev by lia.
      replace ((8 * q + c) / 8) with q by (rewrite Nat.mul_comm, Nat.div_add_l, Nat.div_small; lia).
      replace ((8 * q + c) mod 8) with c by (rewrite Nat.add_comm, Nat.mul_comm, Nat.mod_add, Nat.mod_small; lia). reflexivity. }
    assert (K : forall y, (y < 2 ^ 32)%N -> affine_g 32 h (affine_g 32 h0 y) = y).
    { apply (ag_inv 32). intros y. apply (affine_inverse 32 (gat L) (gat Li) (gv v) (gv w)); [exact HIi|exact Ew]. }
    assert (B8 : forall d y, (affine_g 8 (eh E i d 1) y < 256)%N) by (intros; apply (ag_lt 8)).
    assert (PI : forall d y, d < 4 -> (y < 256)%N -> affine_g 8 (eh E i d 0) (affine_g 8 (eh E i d 1) y) = y).
    { intros d y Hd Hy. apply (HP d Hd). exact Hy. }
    rewrite <- (K (word_of (affine_g 8 (eh E i 0 1) (byte x 3)) (affine_g 8 (eh E i 1 1) (byte x 2))
              (affine_g 8 (eh E i 2 1) (byte x 1)) (affine_g 8 (eh E i 3 1) (byte x 0)))) by (apply word_bound; apply B8).
    rewrite J by apply B8. rewrite !PI by (try lia; apply byte_bound). rewrite word_bytes by exact Hx. reflexivity.
Qed.

Lemma gen_row_wp : forall fuel nt i g s, ntl_ok nt -> i < 36 -> nglob_dims g ->
  wp (n_gen_row fuel nt i g s) (fun o => match o with
    | None => True
    | Some (g', s') => nglob_dims g' /\ kS g' = kS g /\ nrow_good (kP g') (kE g') (kQ g') i /\
        (forall r k, r <> i -> at2 naff (kP g') r k = at2 naff (kP g) r k) /\
        (forall r j k, r <> i -> eh (kE g') r j k = eh (kE g) r j k) /\
        (forall r k, r <> i -> at2 naff (kQ g') r k = at2 naff (kQ g) r k)
    end).
Proof.
  intros fuel nt i g s HE Hi (DP & DE & DQ). unfold n_gen_row.
  apply wp_bind. eapply wp_mono; [apply (gen_pair_wp 32); auto|].
  intros [[[p pi] s1]|] Hp; [|apply wp_ok; exact I].
  w2 36 2. intros P1 DP1 AP1 _. w2 36 2. intros P2 DP2 AP2 _.
  apply wp_bind. eapply wp_mono; [apply gen_E_wp; auto|]. intros [[E1 s2]|] HE1; [|apply wp_ok; exact I].
  destruct HE1 as (DE1 & FE1 & GE1).
  apply wp_bind. eapply wp_mono; [apply join_E_wp; auto|]. intros E2 (DE2 & FE2 & GE2 & OE2 & AE2).
  apply wp_bind. eapply wp_mono; [apply (gen_pair_wp 32); auto|].
  intros [[[q qi] s3]|] Hq; [|apply wp_ok; exact I].
  w2 36 2. intros Q1 DQ1 AQ1 _. w2 36 2. intros Q2 DQ2 AQ2 _. apply wp_ok. cbn [kP kE kQ kS].
  split; [split; [|split]; assumption|]. split; [reflexivity|]. split; [|split; [|split]].
  - split.
    + rewrite !AP2, !AP1, !Nat.eqb_refl. cbn [Nat.eqb andb]. exact Hp.
    + intros j Hj. rewrite !GE2 by lia. apply GE1. exact Hj.
    + exact OE2.
    + intros x Hx. rewrite (GE2 0), (GE2 1), (GE2 2), (GE2 3) by lia. apply AE2. exact Hx.
    + rewrite !AQ2, !AQ1, !Nat.eqb_refl. cbn [Nat.eqb andb]. exact Hq.
  - intros r k Hr. rewrite AP2, AP1. destruct (Nat.eqb_spec r i); [lia|]. reflexivity.
  - intros r j k Hr. rewrite FE2 by exact Hr. apply FE1. exact Hr.
  - intros r k Hr. rewrite AQ2, AQ1. destruct (Nat.eqb_spec r i); [lia|]. reflexivity.
Qed.

Definition nglob_good (g : nglob) : Prop :=
  nglob_dims g /\ dims3 32 4 256 (kS g) /\ forall r, r < 36 -> nrow_good (kP g) (kE g) (kQ g) r.

Lemma n_gen_affine_wp : forall fuel nt g s, ntl_ok nt -> nglob_dims g -> dims3 32 4 256 (kS g) ->
  wp (n_gen_affine fuel nt g s) (fun o => match o with None => True | Some (g', s') => nglob_good g' /\ kS g' = kS g end).
Proof.
  intros fuel nt g s HE DG DS. unfold n_gen_affine.
  apply wp_for_up with (I := fun i (o : option (nglob * nat)) => match o with
    | None => True
    | Some (g', s') => nglob_dims g' /\ kS g' = kS g /\ forall r, r < i -> nrow_good (kP g') (kE g') (kQ g') r
    end).
  - lia.
  - split; [exact DG|]. split; [reflexivity|]. intros; lia.
  - intros i o _ Hi Ho. destruct o as [[g1 s1]|]; [|apply wp_ok; exact I]. destruct Ho as (D1 & S1 & R1).
    eapply wp_mono; [apply gen_row_wp; auto|]. intros [[g2 s2]|]; [|auto]. intros (D2 & S2 & R2 & F1 & F2 & F3).
    split; [exact D2|]. split; [congruence|]. intros r Hr. destruct (Nat.eq_dec r i) as [->|]; [exact R2|].
    destruct (R1 r ltac:(lia)) as [A1 A2 A3 A4 A5]. split.
    + rewrite !F1 by assumption. exact A1.
    + intros j Hj. rewrite !F2 by assumption. apply A2. exact Hj.
    + rewrite F2 by assumption. exact A3.
    + intros x Hx. rewrite !F2 by assumption. apply A4. exact Hx.
    + rewrite !F3 by assumption. exact A5.
  - intros [[g' s']|]; [|auto]. intros (D & S & R). split; [|exact S]. split; [exact D|]. split; [rewrite S; exact DS|exact R].
Qed.

Lemma csl_m_app : forall csl x, gok 32 32 csl ->
  (forall i j, i < 32 -> j < 32 -> gat csl i j = bits 32 (nth i wb_csl 0%N) j) -> (x < 2 ^ 32)%N ->
  veq 32 (fapp 32 (gat csl) (bits 32 x)) (bits 32 (linL x)).
Proof.
  intros csl x _ H Hx i Hi. rewrite bits_bv32 by exact Hi. rewrite <- bv32_bit by exact Hi. rewrite <- fapp_csl by assumption.
  unfold fapp. apply xsum_ext. intros k Hk. rewrite bv32_bit by exact Hk. f_equal. rewrite H by assumption.
  pose proof csl_bits_check as C. rewrite forallb_forall in C. specialize (C i). rewrite in_seq, forallb_forall in C.
  specialize (C ltac:(lia) k). rewrite in_seq in C. symmetry. apply eqb_prop. apply C. lia.
Qed.
Lemma n_initMatrixL_wp : forall nt, wp (n_initMatrixL nt) (fun csl => gok 32 32 csl /\
  forall i j, i < 32 -> j < 32 -> gat csl i j = bits 32 (nth i wb_csl 0%N) j).
Proof.
  intros nt. unfold n_initMatrixL. apply (wp_mat_bits 32 32) with (h := fun i j => bits 32 (nth i wb_csl 0%N) j); [apply gdims_ok|reflexivity| |auto].
  intros i k Hi Hk. rewrite (nth_indep _ 0%Z (to_long (tlong nt) 0)) by (rewrite map_length; exact Hi). rewrite map_nth. rewrite to_long_bit; [|apply csl_small; exact Hi|exact Hk].
  unfold bits. do 2 f_equal. lia.
Qed.

(** ** Table entries *)

(** column block d of QL times a byte *)
Definition npart (QL : gmat) (d : nat) (s : N) : fvec := fun i =>
  xsum 8 (fun k => gat QL i (8 * d + k) && bits 8 s k).

Lemma n_split_QL_wp : forall QL, gok 32 32 QL ->
  wp (n_split_QL QL) (fun L => length L = 4 /\ forall j, j < 4 -> gok 32 8 (nth j L (gdims 0 0)) /\
    forall a b, a < 32 -> b < 8 -> gat (nth j L (gdims 0 0)) a b = gat QL a (8 * j + b)).
Proof.
  intros QL HQ. unfold n_split_QL.
  apply wp_for_up with (I := fun n L => length L = 4 /\ forall j, j < n -> gok 32 8 (nth j L (gdims 0 0)) /\
    forall a b, a < 32 -> b < 8 -> gat (nth j L (gdims 0 0)) a b = gat QL a (8 * j + b)).
  - lia.
  - split; [reflexivity|]. intros; lia.
  - intros j L _ Hj [LL HL]. apply wp_bind.
    apply (gwp_fill_all 32 8 _ (fun a b => gat QL a (8 * j + b))
      (fun ii jj m => x <- gget QL ii (j * 8 + jj) ;; gput m ii jj x) (fun _ => 8)).
    + apply gdims_ok.
    + reflexivity.
    + intros a b M Q' Ha Hb HM HQ'. apply wp_bind, (wp_gget 32 32); [exact HQ|exact Ha|lia|].
      apply (wp_gput 32 8 M a b (gat QL a (j * 8 + b))); auto. rewrite (Nat.mul_comm j 8). exact HQ'.
    + intros M HM EM. apply wp_aset; [lia|]. split; [rewrite length_upd; exact LL|]. intros j' Hj'.
      rewrite nth_upd by lia. destruct (Nat.eqb_spec j' j) as [->|]; [split; [exact HM|intros; apply EM; assumption]|apply HL; lia].
  - intros L H. exact H.
Qed.

Definition nentry_ok (g : nglob) (QL : gmat) (i d k : nat) (y : N) : Prop :=
  (y < 2 ^ 32)%N /\
  veq 32 (bits 32 y) (npart QL d (at3 0%N (kS g) i d (N.to_nat (affine_g 8 (eh (kE g) i d 0) (N.of_nat k))))).

Definition QL_split (QL : gmat) (QLi : list gmat) : Prop :=
  length QLi = 4 /\ forall j, j < 4 -> gok 32 8 (nth j QLi (gdims 0 0)) /\
    forall a b, a < 32 -> b < 8 -> gat (nth j QLi (gdims 0 0)) a b = gat QL a (8 * j + b).

Lemma n_table_entry_wp : forall g QL QLi i k d, nglob_good g -> QL_split QL QLi ->
  i < 32 -> k < 256 -> d < 4 -> wp (n_table_entry g QLi i k d) (nentry_ok g QL i d k).
Proof.
  intros g QL QLi i k d ((DP & DE & DQ) & DS & RG) [LQ HQ] Hi Hk Hd. unfold n_table_entry.
  destruct (ng_E _ _ _ _ (RG i ltac:(lia)) d Hd) as ((HA & HV) & _).
  rewrite <- nat_N_Z, vec_N. cbn [bind].
  set (kv := vbits 8 (N.of_nat k)). assert (Hkv : length kv = 8) by apply vbits_length.
  assert (Ekv : veq 8 (gv kv) (bits 8 (N.of_nat k))) by apply vbits_gv. clearbody kv.
  g3 36 5 2. fold (eh (kE g) i d 0).
  apply wp_bind. apply (wp_gmulv 8 8); auto. intros t Ht Et.
  apply wp_bind. apply (wp_gaddv 8); auto. intros kv2 Hkv2 Ekv2.
  rewrite (getDigital_eq 8) by (auto; lia). cbn [bind].
  assert (E1 : num 8 (gv kv2) = affine_g 8 (eh (kE g) i d 0) (N.of_nat k)).
  { apply num_ext. rewrite Ekv2. intros a Ha. unfold affine_f, vadd. f_equal. rewrite Et by exact Ha.
    apply fapp_proper; [reflexivity| |exact Ha]. exact Ekv. }
  rewrite E1. assert (B1 := ag_lt 8 (eh (kE g) i d 0) (N.of_nat k)). change (2 ^ N.of_nat 8)%N with 256%N in B1.
  apply wp_bind. apply (wp_get3 _ 0%N 32 4 256); [assumption|lia|lia|lia|].
  set (kd := at3 0%N (kS g) i d _).
  rewrite vec_N. cbn [bind].
  set (kv3 := vbits 8 kd). assert (Hkv3 : length kv3 = 8) by apply vbits_length.
  assert (Ekv3 : veq 8 (gv kv3) (bits 8 kd)) by apply vbits_gv. clearbody kv3.
  apply wp_bind. apply wp_aget with (d := gdims 0 0); [lia|]. destruct (HQ d Hd) as [Hm Em].
  apply wp_bind. apply (wp_gmulv 32 8); auto. intros dest Hdest Edest.
  rewrite get32_eq by lia. apply wp_ok. split; [apply num_lt|].
  rewrite bits_num. intros a Ha. rewrite Edest by exact Ha. unfold npart, fapp. apply xsum_ext. intros b Hb.
  rewrite Em by assumption. f_equal. apply Ekv3. exact Hb.
Qed.

Definition ntable_ok (g : nglob) (QL : gmat) (r : N) (T : list (list (list N))) (i d k : nat) : Prop :=
  nentry_ok g QL i d k (N.lxor (at3 0%N T i d k) (if Nat.eqb d 3 then r else 0%N)).

Lemma n_gen_table_wp : forall g QL QLi r i T, nglob_good g -> QL_split QL QLi ->
  i < 32 -> dims3 32 4 256 T ->
  wp (n_gen_table g QLi r i T) (fun T' => dims3 32 4 256 T' /\
    (forall i', i' <> i -> nth i' T' [] = nth i' T []) /\
    forall d k, d < 4 -> k < 256 -> ntable_ok g QL r T' i d k).
Proof.
  intros g QL QLi r i T HG HQ Hi DT. unfold n_gen_table.
  apply wp_for_up with (I := fun k T' => dims3 32 4 256 T' /\
    (forall i', i' <> i -> nth i' T' [] = nth i' T []) /\
    forall d k', d < 4 -> k' < k -> ntable_ok g QL r T' i d k').
  { lia. } { split; auto. split; auto. intros; lia. }
  2:{ intros T' (D & F & H). split; auto. }
  intros k T0 _ Hk (D0 & F0 & H0). apply wp_bind.
  apply wp_for_up with (I := fun d T' => dims3 32 4 256 T' /\
    (forall i', i' <> i -> nth i' T' [] = nth i' T []) /\
    (forall d' k', d' < 4 -> k' < k -> ntable_ok g QL r T' i d' k') /\
    (forall d', d' < d -> nentry_ok g QL i d' k (at3 0%N T' i d' k))).
  { lia. } { split; auto. split; auto. split; auto. intros; lia. }
  { intros d T1 _ Hd (D1 & F1 & H1 & E1). apply wp_bind.
    eapply wp_mono; [apply n_table_entry_wp with (QL := QL); auto|]. intros y Hy.
    apply wp_set3 with (d := 0%N) (n := 32) (m := 4) (l := 256); auto.
    intros T2 D2 A2 F2. split; auto. split; [intros i' Hi'; rewrite F2 by auto; auto|]. split.
    - intros d' k' Hd' Hk'. unfold ntable_ok. rewrite A2.
      destruct (Nat.eqb_spec k' k); [lia|]. rewrite !andb_false_r. apply H1; auto.
    - intros d' Hd'. rewrite A2, !Nat.eqb_refl. cbn [andb]. rewrite andb_true_r.
      destruct (Nat.eqb_spec d' d) as [->|]; auto. apply E1. lia. }
  intros T1 (D1 & F1 & H1 & E1).
  apply wp_bind. apply wp_get3 with (d := 0%N) (n := 32) (m := 4) (l := 256); auto; try lia.
  apply wp_set3 with (d := 0%N) (n := 32) (m := 4) (l := 256); auto; try lia.
  intros T2 D2 A2 F2. split; auto. split; [intros i' Hi'; rewrite F2 by auto; auto|].
  intros d k' Hd Hk'. unfold ntable_ok. rewrite A2, Nat.eqb_refl. cbn [andb].
  destruct (Nat.eqb_spec d 3) as [->|Hd3]; cbn [andb].
  - destruct (Nat.eqb_spec k' k) as [->|].
    + rewrite N.lxor_assoc, N.lxor_nilpotent, N.lxor_0_r. apply E1. lia.
    + apply (H1 3 k'); lia.
  - destruct (Nat.eq_dec k' k) as [->|].
    + rewrite N.lxor_0_r. apply E1. lia.
    + specialize (H1 d k' Hd ltac:(lia)). unfold ntable_ok in H1.
      destruct (Nat.eqb_spec d 3); [lia|]. exact H1.
Qed.

(** ** One round of table generation *)

Definition nctx_dims (c : nctx) : Prop :=
  dims2 32 3 (yM c) /\ length (yC c) = 32 /\ length (yD c) = 32 /\
  length (ySE c) = 4 /\ length (yFE c) = 4 /\ dims3 32 4 256 (yT c).

Definition np0 (g : nglob) (i : nat) : gaff := at2 naff (kP g) i 0.
Definition np1 (g : nglob) (i : nat) : gaff := at2 naff (kP g) i 1.
Definition nq0 (g : nglob) (i : nat) : gaff := at2 naff (kQ g) i 0.
Definition nq1 (g : nglob) (i : nat) : gaff := at2 naff (kQ g) i 1.
Definition gvnum (f : gaff) : N := num 32 (gv (gtra f)).
Lemma get32_vnum : forall f, okg 32 f -> get32FromVec (gtra f) = Ok (gvnum f).
Proof. intros f [_ H]. apply get32_eq. lia. Qed.

Record nround_ok (g : nglob) (csl : gmat) (c : nctx) (i : nat) : Prop :=
  { no_M : forall j, j < 3 -> okg 32 (at2 naff (yM c) i j) /\
      forall x, affine_g 32 (at2 naff (yM c) i j) x = affine_g 32 (eh (kE g) i 4 1) (affine_g 32 (np1 g (i + 1 + j)) x);
    no_C : okg 32 (nth i (yC c) naff) /\
      forall x, affine_g 32 (nth i (yC c) naff) x = affine_g 32 (np0 g (i + 4)) (affine_g 32 (np1 g i) x);
    no_D : okg 32 (nth i (yD c) naff) /\
      forall x, affine_g 32 (nth i (yD c) naff) x =
        N.lxor (affine_g 32 (np0 g (i + 4)) (affine_g 32 (nq1 g i) x)) (gvnum (np0 g (i + 4)));
    no_T : exists QL, gok 32 32 QL /\
      feq 32 (gat QL) (fmul 32 (gat (glin (nq0 g i))) (gat csl)) /\
      forall d k, d < 4 -> k < 256 -> ntable_ok g QL (gvnum (nq0 g i)) (yT c) i d k }.

Lemma comp_ok : forall f g L t v, okg 32 f -> okg 32 g -> gok 32 32 L ->
  (forall i j, i < 32 -> j < 32 -> gat L i j = fmul 32 (gat (glin f)) (gat (glin g)) i j) ->
  (forall i, i < 32 -> gv t i = fapp 32 (gat (glin f)) (gv (gtra g)) i) -> length v = 32 ->
  veq 32 (gv v) (vadd (gv t) (gv (gtra f))) ->
  okg 32 (mkgaff L v) /\ forall x, affine_g 32 (mkgaff L v) x = affine_g 32 f (affine_g 32 g x).
Proof.
  intros f g L t v HF HG HL EL Et Hv Ev. split; [split; assumption|]. intros x. apply ag_comp; cbn [glin gtra].
  - intros i j Hi Hj. apply EL; assumption.
  - intros i Hi. rewrite Ev by exact Hi. unfold vadd. rewrite Et by exact Hi. reflexivity.
Qed.

(** adding a constant to the vector *)
Lemma ag_shift : forall L v v' f, veq 32 (gv v') (vadd (gv (gtra f)) (gv v)) ->
  forall x, affine_g 32 (mkgaff L v') x = N.lxor (affine_g 32 (mkgaff L v) x) (gvnum f).
Proof.
  intros L v v' f H x. apply (bits_ext 32); [apply ag_lt|apply lxor_lt; [apply ag_lt|apply num_lt]|].
  intros i Hi. rewrite bits_lxor. unfold gvnum. rewrite bits_num by exact Hi. rewrite !ag_bits by exact Hi.
  unfold affine_f, vadd. cbn [glin gtra]. rewrite H by exact Hi. unfold vadd.
  destruct (fapp 32 (gat L) (bits 32 x) i), (gv (gtra f) i), (gv v i); reflexivity.
Qed.

Section Gen.
Variables (nt : ntl) (g : nglob) (csl : gmat).
Hypothesis HG : nglob_good g.
Hypothesis HL : gok 32 32 csl.

Lemma WP : forall k, k < 36 -> okg 32 (np0 g k) /\ okg 32 (np1 g k).
Proof. intros k Hk. destruct HG as (_ & _ & RG). destruct (ng_P _ _ _ _ (RG k Hk)) as (A & B & _). auto. Qed.
Lemma WQ : forall k, k < 36 -> okg 32 (nq0 g k) /\ okg 32 (nq1 g k).
Proof. intros k Hk. destruct HG as (_ & _ & RG). destruct (ng_Q _ _ _ _ (RG k Hk)) as (A & B & _). auto. Qed.

Lemma mulM : forall f h (Q : gmat -> Prop), okg 32 f -> gok 32 32 h ->
  (forall L, gok 32 32 L -> (forall i j, i < 32 -> j < 32 -> gat L i j = fmul 32 (gat (glin f)) (gat h) i j) -> Q L) ->
  wp (gmul (glin f) h) Q.
Proof. intros f h Q [HF _] Hh HQ. apply (wp_gmul 32 32 32); auto. Qed.
Lemma mulV : forall f v (Q : gvec -> Prop), okg 32 f -> length v = 32 ->
  (forall t, length t = 32 -> (forall i, i < 32 -> gv t i = fapp 32 (gat (glin f)) (gv v) i) -> Q t) ->
  wp (gmulv (glin f) v) Q.
Proof. intros f v Q [HF _] Hv HQ. apply (wp_gmulv 32 32); auto. Qed.

Lemma n_gen_M_wp : forall i M, i < 32 -> dims2 32 3 M ->
  wp (n_gen_M g i M) (fun M' => dims2 32 3 M' /\ (forall r j, r <> i -> at2 naff M' r j = at2 naff M r j) /\
    forall j, j < 3 -> okg 32 (at2 naff M' i j) /\
      forall x, affine_g 32 (at2 naff M' i j) x = affine_g 32 (eh (kE g) i 4 1) (affine_g 32 (np1 g (i + 1 + j)) x)).
Proof.
  intros i M Hi DM. pose proof HG as ((DP & DE & DQ) & DS & RG). unfold n_gen_M.
  pose proof (ng_EC _ _ _ _ (RG i ltac:(lia))) as WEC.
  apply wp_for_up with (I := fun n M' => dims2 32 3 M' /\ (forall r j, r <> i -> at2 naff M' r j = at2 naff M r j) /\
    forall j, j < n -> okg 32 (at2 naff M' i j) /\
      forall x, affine_g 32 (at2 naff M' i j) x = affine_g 32 (eh (kE g) i 4 1) (affine_g 32 (np1 g (i + 1 + j)) x)).
  - lia.
  - split; [exact DM|]. split; [reflexivity|]. intros; lia.
  - intros j M1 _ Hj (D1 & F1 & A1).
    g3 36 5 2. fold (eh (kE g) i 4 1). g2 36 2. fold (np1 g (i + 1 + j)).
    destruct (WP (i + 1 + j) ltac:(lia)) as [_ W1].
    apply wp_bind. apply mulM; auto; [apply W1|]. intros L HL1 EL.
    apply wp_bind. apply mulV; auto; [apply W1|]. intros t Ht Et.
    apply wp_bind. apply (wp_gaddv 32); auto; [apply WEC|]. intros v Hv Ev.
    apply (wp_set2 _ naff 32 3); [assumption|lia|lia|]. intros M2 D2 A2 _. split; [exact D2|]. split.
    + intros r j' Hr. rewrite A2. destruct (Nat.eqb_spec r i); [lia|]. apply F1. exact Hr.
    + intros j' Hj'. rewrite A2, Nat.eqb_refl. cbn [andb]. destruct (Nat.eqb_spec j' j) as [->|]; [|apply A1; lia].
      apply (comp_ok _ _ L t v); assumption.
  - intros M' H. exact H.
Qed.

Lemma n_combine_round_wp : forall c i, nctx_dims c -> i < 32 ->
  (forall r, r < i -> nround_ok g csl c r) ->
  wp (n_combine_round g csl i c) (fun c' => nctx_dims c' /\ forall r, r < S i -> nround_ok g csl c' r).
Proof.
  intros c i (DM & LC & LD & LS & LF & DT) Hi HR. pose proof HG as ((DP & DE & DQ) & DS & RG). unfold n_combine_round.
  destruct (WQ i ltac:(lia)) as [WQ0 WQ1]. destruct (WP (i + 4) ltac:(lia)) as [WP4 _]. destruct (WP i ltac:(lia)) as [_ WPi].
  apply wp_bind. eapply wp_mono; [apply n_gen_M_wp; auto|]. intros M' (DM' & FM & AM).
  g2 36 2. fold (nq0 g i).
  apply wp_bind. apply mulM; auto. intros QL HQL EQL.
  apply wp_bind. eapply wp_mono; [apply n_split_QL_wp; exact HQL|]. intros QLi HQLi.
  rewrite get32_vnum by exact WQ0. cbn [bind].
  apply wp_bind. eapply wp_mono; [apply n_gen_table_wp with (QL := QL); auto|]. intros T' (DT' & FT & AT).
  g2 36 2. fold (np0 g (i + 4)). g2 36 2. fold (np1 g i).
  apply wp_bind. apply mulM; auto; [apply WPi|]. intros cl Hcl Ecl.
  apply wp_bind. apply mulV; auto; [apply WPi|]. intros t Ht Et.
  apply wp_bind. apply (wp_gaddv 32); auto; [apply WP4|]. intros cv Hcv Ecv.
  apply wp_bind. apply wp_aset; [lia|].
  g2 36 2. fold (nq1 g i).
  apply wp_bind. apply mulM; auto; [apply WQ1|]. intros dl Hdl Edl.
  apply wp_bind. apply mulV; auto; [apply WQ1|]. intros t2 Ht2 Et2.
  apply wp_bind. apply (wp_gaddv 32); auto; [apply WP4|]. intros dv Hdv Edv.
  apply wp_bind. apply (wp_gaddv 32); auto; [apply WP4|]. intros dv2 Hdv2 Edv2.
  apply wp_bind. apply wp_aset; [lia|]. apply wp_ok.
  assert (CC : okg 32 (mkgaff cl cv) /\ forall x, affine_g 32 (mkgaff cl cv) x = affine_g 32 (np0 g (i + 4)) (affine_g 32 (np1 g i) x)).
  { apply (comp_ok _ _ cl t cv); auto. rewrite Ecv. intros a _. apply xorb_comm. }
  assert (CD : okg 32 (mkgaff dl dv) /\ forall x, affine_g 32 (mkgaff dl dv) x = affine_g 32 (np0 g (i + 4)) (affine_g 32 (nq1 g i) x)).
  { apply (comp_ok _ _ dl t2 dv); auto. rewrite Edv. intros a _. apply xorb_comm. }
  split.
  { unfold nctx_dims. cbn [yM yC yD ySE yFE yT]. rewrite !length_upd. auto 10. }
  intros r Hr. destruct (Nat.eq_dec r i) as [->|Hne].
  - split; cbn [yM yC yD yT].
    + exact AM.
    + rewrite nth_upd, Nat.eqb_refl by lia. exact CC.
    + rewrite nth_upd, Nat.eqb_refl by lia. split; [split; assumption|]. intros x.
      rewrite (ag_shift dl dv dv2 (np0 g (i + 4))) by exact Edv2. rewrite (proj2 CD). reflexivity.
    + exists QL. split; [exact HQL|]. split; [|exact AT]. intros a b Ha Hb. apply EQL; assumption.
  - assert (Hlt : r < i) by lia. destruct (HR r Hlt) as [R1 R2 R3 (QL' & R4 & R5 & R6)].
    split; cbn [yM yC yD yT].
    + intros j Hj. rewrite FM by auto. apply R1. auto.
    + rewrite nth_upd by lia. destruct (Nat.eqb_spec r i); [lia|]. exact R2.
    + rewrite nth_upd by lia. destruct (Nat.eqb_spec r i); [lia|]. exact R3.
    + exists QL'. split; auto. split; auto. intros d k Hd Hk.
      unfold ntable_ok, at3. rewrite FT by auto. apply R6; auto.
Qed.

Definition same_map (f h : gaff) : Prop := okg 32 f /\ forall x, affine_g 32 f x = affine_g 32 h x.
Lemma same_copy : forall f, okg 32 f -> same_map (mkgaff (glin f) (gtra f)) f.
Proof. intros [L v] H. split; [exact H|reflexivity]. Qed.

Record nctx_good (c : nctx) : Prop :=
  { cn_T : nctx_dims c;
    cn_R : forall r, r < 32 -> nround_ok g csl c r;
    cn_S : forall i, i < 4 -> same_map (nth i (ySE c) naff) (np0 g i);
    cn_F : forall i, i < 4 -> same_map (nth i (yFE c) naff) (np1 g (32 + i)) }.

Lemma n_combine_wp : forall c, nctx_dims c -> wp (n_combine_tables g csl c) nctx_good.
Proof.
  intros c HC. unfold n_combine_tables. apply wp_bind.
  apply wp_for_up with (I := fun i c => nctx_dims c /\ forall r, r < i -> nround_ok g csl c r).
  { lia. } { split; auto. intros; lia. }
  { intros i c' _ Hi [T R]. apply n_combine_round_wp; auto. }
  clear c HC. intros c [HC HR]. pose proof HG as ((DP & DE & DQ) & DS & RG).
  apply wp_for_up with (I := fun i c => nctx_dims c /\ (forall r, r < 32 -> nround_ok g csl c r) /\
    (forall j, j < i -> same_map (nth j (ySE c) naff) (np0 g j)) /\
    (forall j, j < i -> same_map (nth j (yFE c) naff) (np1 g (32 + j)))).
  { lia. } { split; auto. split; auto. split; intros; lia. }
  2:{ intros c' (A & B & C & D). split; auto. }
  clear c HC HR. intros i c _ Hi ((DM & LC & LD & LS & LF & DT) & HR & HS & HF).
  g2 36 2. fold (np0 g i). assert (Hp := same_copy (np0 g i) (proj1 (WP i ltac:(lia)))).
  apply wp_bind. apply wp_aset; [lia|].
  g2 36 2. fold (np1 g (32 + i)). assert (Hq := same_copy (np1 g (32 + i)) (proj2 (WP (32 + i) ltac:(lia)))).
  apply wp_bind. apply wp_aset; [lia|]. apply wp_ok. split; [|split; [|split]].
  - unfold nctx_dims. cbn [yM yC yD ySE yFE yT]. rewrite !length_upd. auto 10.
  - intros r Hr. destruct (HR r Hr) as [R1 R2 R3 R4]. split; auto.
  - intros j Hj. cbn [ySE]. rewrite nth_upd by lia. destruct (Nat.eqb_spec j i) as [->|]; [exact Hp|apply HS; lia].
  - intros j Hj. cbn [yFE]. rewrite nth_upd by lia. destruct (Nat.eqb_spec j i) as [->|]; [exact Hq|apply HF; lia].
Qed.

(** ** Encryption *)

Variables (c : nctx) (rk : nat -> N).
Hypothesis HC : nctx_good c.
Hypothesis HS : forall i d j, i < 32 -> d < 4 -> j < 256 -> sbox_ok rk (kS g) i d j.
Hypothesis HB : forall i j, i < 32 -> j < 32 -> gat csl i j = bits 32 (nth i wb_csl 0%N) j.

Lemma mparts_sum : forall QL s0 s1 s2 s3 i, (s0 < 256)%N -> (s1 < 256)%N -> (s2 < 256)%N -> (s3 < 256)%N -> i < 32 ->
  xorb (xorb (xorb (npart QL 0 s0 i) (npart QL 1 s1 i)) (npart QL 2 s2 i)) (npart QL 3 s3 i)
  = fapp 32 (gat QL) (bits 32 (word_of s0 s1 s2 s3)) i.
Proof.
  intros QL s0 s1 s2 s3 i H0 H1 H2 H3 Hi. unfold fapp, npart.
  assert (B : forall q k, q < 4 -> k < 8 -> bits 8 (nth q [s0; s1; s2; s3] 0%N) k = bits 32 (word_of s0 s1 s2 s3) (8 * q + k)).
  { intros. symmetry. apply bits_word; assumption. }
  generalize dependent (bits 32 (word_of s0 s1 s2 s3)). intros w B.
  change 32 with (8 + (8 + (8 + 8))). rewrite !xsum_add.
  rewrite !xorb_assoc. f_equal; [|f_equal; [|f_equal]]; apply xsum_ext; intros k Hk.
  - f_equal. apply (B 0 k); lia.
  - f_equal. apply (B 1 k); lia.
  - rewrite !Nat.add_assoc. f_equal. apply (B 2 k); lia.
  - rewrite !Nat.add_assoc. f_equal. apply (B 3 k); lia.
Qed.

Lemma mlookup : forall i QL Y d, i < 32 -> d < 4 ->
  (forall d k, d < 4 -> k < 256 -> ntable_ok g QL (gvnum (nq0 g i)) (yT c) i d k) ->
  let t := at3 0%N (yT c) i d (N.to_nat (affine_g 8 (eh (kE g) i d 1) (byte Y (N.of_nat (3 - d))))) in
  let t' := N.lxor t (if Nat.eqb d 3 then gvnum (nq0 g i) else 0%N) in
  (t' < 2 ^ 32)%N /\ veq 32 (bits 32 t') (npart QL d (sbox (byte (N.lxor Y (rk i)) (N.of_nat (3 - d))))).
Proof.
  intros i QL Y d Hi Hd HT t t'. destruct HG as (_ & _ & RG).
  destruct (ng_E _ _ _ _ (RG i ltac:(lia)) d Hd) as (W0 & W1 & _ & _ & I10).
  assert (B := ag_lt 8 (eh (kE g) i d 1) (byte Y (N.of_nat (3 - d)))).
  change (2 ^ N.of_nat 8)%N with 256%N in *.
  destruct (HT d (N.to_nat (affine_g 8 (eh (kE g) i d 1) (byte Y (N.of_nat (3 - d))))) Hd ltac:(lia)) as [B' E'].
  fold t in B', E'. fold t' in B', E'. split; auto.
  rewrite N2Nat.id in E'. rewrite I10 in E' by apply byte_bound.
  pose proof (byte_bound Y (N.of_nat (3 - d))) as BY.
  rewrite (HS i d (N.to_nat (byte Y (N.of_nat (3 - d)))) Hi Hd ltac:(lia)) in E'.
  rewrite N2Nat.id, <- byte_lxor in E'. exact E'.
Qed.

Lemma lxor_lt32 : forall x y, (x < 2 ^ 32)%N -> (y < 2 ^ 32)%N -> (N.lxor x y < 2 ^ 32)%N.
Proof. intros. apply (lxor_lt 32); assumption. Qed.

#[local] Strategy opaque [num affine_g bits].
Lemma mSK32_wp : forall i Y, i < 32 -> (Y < 2 ^ 32)%N ->
  SK32 (yT c) i (affine_g 32 (eh (kE g) i 4 1) Y) = Ok (affine_g 32 (nq0 g i) (linL (tau (N.lxor Y (rk i))))).
Proof.
  intros i Y Hi HY. pose proof HG as (_ & _ & RG). pose proof (RG i ltac:(lia)) as RGi.
  rewrite (ng_ECa _ _ _ _ RGi Y HY).
  assert (B8 : forall d y, (affine_g 8 (eh (kE g) i d 1) y < 256)%N) by (intros; apply (ag_lt 8)).
  destruct (byte_word _ _ _ _ (B8 0 (byte Y 3)) (B8 1 (byte Y 2)) (B8 2 (byte Y 1)) (B8 3 (byte Y 0))) as (E3 & E2 & E1 & E0).
  set (a := word_of _ _ _ _) in *. unfold SK32.
  change 24%N with (8 * 3)%N. change 16%N with (8 * 2)%N. change (N.shiftr a 8) with (N.shiftr a (8 * 1)).
  replace (N.land a 255) with (N.land (N.shiftr a (8 * 0)) 255) by reflexivity.
  rewrite !land_byte, E3, E2, E1, E0.
  destruct (cn_T _ HC) as (_ & _ & _ & _ & _ & DT).
  destruct (cn_R _ HC i Hi) as [_ _ _ (QL & WQL & FQL & AT)].
  pose proof (mlookup i QL Y 0 Hi ltac:(lia) AT) as [Q0 P0].
  pose proof (mlookup i QL Y 1 Hi ltac:(lia) AT) as [Q1 P1].
  pose proof (mlookup i QL Y 2 Hi ltac:(lia) AT) as [Q2 P2].
  pose proof (mlookup i QL Y 3 Hi ltac:(lia) AT) as [Q3 P3].
  cbn [Nat.sub Nat.eqb N.of_nat] in P0, P1, P2, P3, Q0, Q1, Q2, Q3.
  change (N.pos (Pos.of_succ_nat 2)) with 3%N in *. change (N.pos (Pos.of_succ_nat 1)) with 2%N in *.
  change (N.pos (Pos.of_succ_nat 0)) with 1%N in *.
  rewrite N.lxor_0_r in P0, P1, P2, Q0, Q1, Q2.
  set (t0 := at3 0%N (yT c) i 0 _) in *. set (t1 := at3 0%N (yT c) i 1 _) in *.
  set (t2 := at3 0%N (yT c) i 2 _) in *. set (t3 := at3 0%N (yT c) i 3 _) in *.
  assert (Br : (gvnum (nq0 g i) < 2 ^ 32)%N) by apply num_lt.
  assert (Q3' : (t3 < 2 ^ 32)%N).
  { replace t3 with (N.lxor (N.lxor t3 (gvnum (nq0 g i))) (gvnum (nq0 g i))).
    - apply lxor_lt32; auto.
    - rewrite N.lxor_assoc, N.lxor_nilpotent, N.lxor_0_r. reflexivity. }
  apply Cons.wp_eq.
  apply wp_bind. apply wp_get3 with (d := 0%N) (n := 32) (m := 4) (l := 256); auto; try lia; [pose proof (B8 0 (byte Y 3)); lia|].
  apply wp_bind. apply wp_get3 with (d := 0%N) (n := 32) (m := 4) (l := 256); auto; try lia; [pose proof (B8 1 (byte Y 2)); lia|].
  apply wp_bind. apply wp_get3 with (d := 0%N) (n := 32) (m := 4) (l := 256); auto; try lia; [pose proof (B8 2 (byte Y 1)); lia|].
  apply wp_bind. apply wp_get3 with (d := 0%N) (n := 32) (m := 4) (l := 256); auto; try lia; [pose proof (B8 3 (byte Y 0)); lia|].
  fold t0 t1 t2 t3. apply wp_ok.
  set (z := tau (N.lxor Y (rk i))).
  apply (bits_ext 32); [repeat apply lxor_lt32; auto|apply ag_lt|].
  intros j Hj. rewrite ag_bits by exact Hj. unfold affine_f, vadd.
  assert (F : fapp 32 (gat (glin (nq0 g i))) (bits 32 (linL z)) j = fapp 32 (gat QL) (bits 32 z) j).
  { symmetry. assert (V : veq 32 (fapp 32 (gat QL) (bits 32 z)) (fapp 32 (gat (glin (nq0 g i))) (bits 32 (linL z)))).
    { rewrite FQL, fmul_fapp, (csl_m_app csl z HL HB) by apply tau_bound. reflexivity. }
    apply V. auto. }
  rewrite F. unfold z, tau at 1.
  rewrite <- mparts_sum by (auto; apply sbox_bound, byte_bound).
  rewrite <- P0, <- P1, <- P2, <- P3 by auto. rewrite !bits_lxor.
  unfold gvnum. rewrite bits_num by exact Hj.
  destruct (bits 32 t0 j), (bits 32 t1 j), (bits 32 t2 j), (bits 32 t3 j), (gv (gtra (nq0 g i)) j); reflexivity.
Qed.

Lemma n_round_step : forall i X0 X1 X2 X3, i < 32 ->
  (X0 < 2 ^ 32)%N -> (X1 < 2 ^ 32)%N -> (X2 < 2 ^ 32)%N -> (X3 < 2 ^ 32)%N ->
  n_round nt c i (affine_g 32 (np0 g i) X0) (affine_g 32 (np0 g (i + 1)) X1) (affine_g 32 (np0 g (i + 2)) X2) (affine_g 32 (np0 g (i + 3)) X3)
  = Ok (affine_g 32 (np0 g (i + 4)) (N.lxor X0 (linL (tau (xor4 X1 X2 X3 (rk i)))))).
Proof.
  intros i X0 X1 X2 X3 Hi B0 B1 B2 B3. pose proof HG as (_ & _ & RG).
  destruct (cn_T _ HC) as (DM & LC & LD & _).
  destruct (cn_R _ HC i Hi) as [RM (WC & AC) (WD & AD) _].
  assert (PI : forall k X, k < 36 -> (X < 2 ^ 32)%N -> affine_g 32 (np1 g k) (affine_g 32 (np0 g k) X) = X).
  { intros k X Hk HX. destruct (ng_P _ _ _ _ (RG k Hk)) as (_ & _ & _ & I & _). apply I. exact HX. }
  destruct (RM 0 ltac:(lia)) as [W0 A0]. destruct (RM 1 ltac:(lia)) as [W1 A1]. destruct (RM 2 ltac:(lia)) as [W2 A2].
  apply Cons.wp_eq. unfold n_round.
  g2 32 3. rewrite apply32_eq by (auto; apply (ag_lt 32)). cbn [bind].
  g2 32 3. rewrite apply32_eq by (auto; apply (ag_lt 32)). cbn [bind].
  g2 32 3. rewrite apply32_eq by (auto; apply (ag_lt 32)). cbn [bind].
  rewrite A0, A1, A2. rewrite Nat.add_0_r.
  replace (i + 1 + 1) with (i + 2) by lia. replace (i + 1 + 2) with (i + 3) by lia.
  rewrite !PI by (auto; lia).
  rewrite <- ag_xor3. rewrite mSK32_wp by (auto; repeat apply lxor_lt32; auto). cbn [bind].
  apply wp_bind. apply wp_aget with (d := naff); [lia|]. rewrite apply32_eq by (auto; apply (ag_lt 32)). cbn [bind].
  apply wp_bind. apply wp_aget with (d := naff); [lia|]. rewrite apply32_eq by (auto; apply (ag_lt 32)). cbn [bind].
  apply wp_ok. rewrite AC, AD, PI by (auto; lia).
  destruct (ng_Q _ _ _ _ (RG i ltac:(lia))) as (_ & _ & _ & IQ & _).
  fold (nq0 g i) in IQ. fold (nq1 g i) in IQ.
  set (z := linL (tau (N.lxor (N.lxor (N.lxor X1 X2) X3) (rk i)))).
  assert (Bz : (z < 2 ^ 32)%N) by (apply linL_bound, tau_bound).
  rewrite IQ by exact Bz.
  assert (Ez : z = linL (tau (xor4 X1 X2 X3 (rk i)))).
  { unfold z, xor4. rewrite !N.lxor_assoc. reflexivity. }
  rewrite <- Ez. clearbody z. rewrite ag_xor. unfold gvnum. rewrite N.lxor_assoc. reflexivity.
Qed.

Lemma n_enc_ok : forall IN OUT, bytes 16 IN -> length OUT = 16 -> n_wb_enc nt IN OUT c = Ok (sm4_block rk IN).
Proof.
  intros IN OUT [LI FI] LO. unfold n_wb_enc. pose proof HG as (_ & _ & RG).
  rewrite !GET32_ok by (auto; lia). cbn [bind].
  change (word_of (nth 0 IN 0%N) (nth (0 + 1) IN 0%N) (nth (0 + 2) IN 0%N) (nth (0 + 3) IN 0%N)) with (be_word IN 0).
  change (word_of (nth 4 IN 0%N) (nth (4 + 1) IN 0%N) (nth (4 + 2) IN 0%N) (nth (4 + 3) IN 0%N)) with (be_word IN 1).
  change (word_of (nth 8 IN 0%N) (nth (8 + 1) IN 0%N) (nth (8 + 2) IN 0%N) (nth (8 + 3) IN 0%N)) with (be_word IN 2).
  change (word_of (nth 12 IN 0%N) (nth (12 + 1) IN 0%N) (nth (12 + 2) IN 0%N) (nth (12 + 3) IN 0%N)) with (be_word IN 3).
  assert (PI : forall k X, k < 36 -> (X < 2 ^ 32)%N -> affine_g 32 (np1 g k) (affine_g 32 (np0 g k) X) = X).
  { intros k X Hk HX. destruct (ng_P _ _ _ _ (RG k Hk)) as (_ & _ & _ & I & _). apply I. exact HX. }
  destruct (cn_T _ HC) as (_ & _ & _ & LS & LF & _).
  set (X := Xs (enc_F rk) (quad_of IN)).
  pose proof (Xs_enc_bound rk IN FI) as BX. fold X in BX.
  apply Cons.wp_eq.
  do 4 (apply wp_bind; apply wp_aget with (d := naff); [lia|];
    rewrite apply32_eq by (first [apply (cn_S _ HC); lia|apply be_word_bound; exact FI]); cbn [bind]).
  rewrite !(fun i H => proj2 (cn_S _ HC i H)) by lia.
  apply wp_bind.
  apply wp_for_up with (I := fun i (st : N * N * N * N) =>
    st = (affine_g 32 (np0 g i) (X i), affine_g 32 (np0 g (i + 1)) (X (i + 1)), affine_g 32 (np0 g (i + 2)) (X (i + 2)),
          affine_g 32 (np0 g (i + 3)) (X (i + 3)))).
  { lia. } { reflexivity. }
  { intros i [[[x0 x1] x2] x3] _ Hi E. injection E as -> -> -> ->.
    rewrite n_round_step by (auto; lia). cbn [bind]. apply wp_ok.
    replace (S i) with (i + 1) by lia. replace (i + 1 + 1) with (i + 2) by lia. replace (i + 1 + 2) with (i + 3) by lia.
    replace (i + 1 + 3) with (i + 4) by lia. f_equal. f_equal. unfold X. rewrite Xs_step. reflexivity. }
  intros [[[x0 x1] x2] x3] E. injection E as -> -> -> ->.
  do 4 (apply wp_bind; apply wp_aget with (d := naff); [lia|];
    rewrite apply32_eq by (first [apply (cn_F _ HC); lia|apply (ag_lt 32)]); cbn [bind]).
  rewrite !(fun i H => proj2 (cn_F _ HC i H)) by lia.
  cbn [Nat.add]. rewrite !PI by (auto; lia).
  rewrite sm4_block_Xs. fold X. generalize (X 35) (X 34) (X 33) (X 32). clear - LO. intros y3 y2 y1 y0.
  change PUT32 with PUT_ULONG_BE.
  apply wp_bind. apply wp_PUT; [lia|]. intros o1 L1 N1.
  apply wp_bind. apply wp_PUT; [lia|]. intros o2 L2 N2.
  apply wp_bind. apply wp_PUT; [lia|]. intros o3 L3 N3.
  apply wp_PUT; [lia|]. intros o4 L4 N4.
  apply list_ext with (d := 0%N); [rewrite L4, L3, L2, L1, LO; reflexivity|].
  intros k Hk. rewrite N4, N3, N2, N1. rewrite L4, L3, L2, L1, LO in Hk. clear - Hk.
  do 16 (destruct k as [|k]; [reflexivity|]). exfalso. lia.
Qed.
End Gen.

(** ** The whole program *)
Theorem n_wb_correct : forall fuel nt key g c s, ntl_ok nt -> bytes 16 key ->
  nglob_dims g -> dims3 32 4 256 (kS g) -> nctx_dims c ->
  wp (n_gen_tables fuel nt key g c s) (fun o => match o with
    | None => True
    | Some (g', c', s') => nglob_dims g' /\ dims3 32 4 256 (kS g') /\ nctx_dims c' /\
        forall IN OUT, bytes 16 IN -> length OUT = 16 -> n_wb_enc nt IN OUT c' = Ok (SM4_encrypt key IN)
    end).
Proof.
  intros fuel nt key g c s HE HK HG DS HC. unfold n_gen_tables, sm4_setkey_enc. apply wp_bind.
  eapply wp_mono; [apply sm4_setkey_wp; auto; reflexivity|]. intros sk Hsk.
  apply wp_bind. eapply wp_mono; [apply secret_sbox_wp with (rk := round_key key); auto|]. intros S' [DS' HS'].
  apply wp_bind. eapply wp_mono; [apply n_gen_affine_wp; auto|]. intros [[g' s']|]; [|intros _; apply wp_ok; exact I].
  intros [GG ES]. cbn [kS] in ES.
  apply wp_bind. eapply wp_mono; [apply n_initMatrixL_wp|]. intros csl [Hcsl Ecsl].
  apply wp_bind. eapply wp_mono; [apply n_combine_wp; auto|]. intros c' CG. apply wp_ok.
  split; [apply GG|]. split; [rewrite ES; exact DS'|]. split; [apply (cn_T _ _ _ CG)|].
  intros IN OUT HI HO. unfold SM4_encrypt. apply (n_enc_ok nt g' csl GG Hcsl c' (round_key key) CG); auto.
  intros i d j Hi Hd Hj. rewrite ES. apply HS'; auto.
Qed.

(** ** Termination: if invertible matrices are always found, some fuel is enough *)

Lemma gen_E_some : forall nt i E s, ntl_ok nt -> i < 36 -> dims3 36 5 2 E -> always (trand nt) 8 ->
  exists f0 E' s', forall f, f0 <= f -> n_gen_E f nt i E s = Ok (Some (E', s')).
Proof.
  intros nt i E s HE Hi DE HA.
  destruct (ev_for_up (list (list (list gaff)) * nat) (fun fuel j st =>
    match st with
    | None => Ok None
    | Some (E, s) =>
        o <- RANDOM_AFFINE_MAT fuel nt 8 s ;;
        match o with
        | None => Ok None
        | Some (f, fi, s) => E <- set3 E i j 0 f ;; E <- set3 E i j 1 fi ;; Ok (Some (E, s))
        end
    end) (fun _ st => dims3 36 5 2 (fst st)) 4 0 (E, s)) as (f0 & [E' s'] & _ & H); [lia|exact DE| |exists f0, E', s'; exact H].
  intros j [E1 s1] _ Hj D1. cbn [fst] in D1. destruct (gen_pair_some 8 nt s1 HE HA) as (f0 & f & g & s2 & _ & EP).
  destruct (wp_ex _ (E2 <- set3 E1 i j 0 f ;; E3 <- set3 E2 i j 1 g ;; Ok (Some (E3, s2)))
    (fun o => exists E3, o = Some (E3, s2) /\ dims3 36 5 2 E3)) as (o & EO & E3 & -> & D3).
  { w3 36 5 2. intros E2 D2 A2 _. w3 36 5 2. intros E3 D3 A3 _. apply wp_ok. exists E3. auto. }
  exists f0, (E3, s2). split; [exact D3|]. intros k Hk. rewrite EP by exact Hk. cbn [bind]. exact EO.
Qed.
Lemma gen_row_some : forall nt i g s, ntl_ok nt -> i < 36 -> nglob_dims g -> always (trand nt) 8 -> always (trand nt) 32 ->
  exists f0 g' s', forall f, f0 <= f -> n_gen_row f nt i g s = Ok (Some (g', s')).
Proof.
  intros nt i g s HE Hi (DP & DE & DQ) H8 H32.
  destruct (gen_pair_some 32 nt s HE H32) as (f1 & p & pi & s1 & _ & EP).
  destruct (wp_ex _ (set2 (kP g) i 0 p) (dims2 36 2)) as (P1 & EP1 & DP1).
  { apply (wp_set2 _ naff 36 2); auto. }
  destruct (wp_ex _ (set2 P1 i 1 pi) (dims2 36 2)) as (P2 & EP2 & DP2).
  { apply (wp_set2 _ naff 36 2); auto. }
  destruct (gen_E_some nt i (kE g) s1 HE Hi DE H8) as (f2 & E1 & s2 & EE).
  pose proof (gen_E_wp f2 nt i (kE g) s1 HE Hi DE) as WE. rewrite EE in WE by lia. destruct WE as (DE1 & FE1 & GE1).
  destruct (wp_ex _ _ _ (join_E_wp nt i E1 HE Hi DE1 GE1)) as (E2 & EJ & DE2 & _).
  destruct (gen_pair_some 32 nt s2 HE H32) as (f3 & q & qi & s3 & _ & EQ).
  destruct (wp_ex _ (set2 (kQ g) i 0 q) (dims2 36 2)) as (Q1 & EQ1 & DQ1).
  { apply (wp_set2 _ naff 36 2); auto. }
  destruct (wp_ex _ (set2 Q1 i 1 qi) (dims2 36 2)) as (Q2 & EQ2 & DQ2).
  { apply (wp_set2 _ naff 36 2); auto. }
  exists (Nat.max f1 (Nat.max f2 f3)), (mkng P2 E2 Q2 (kS g)), s3. intros f Hf. unfold n_gen_row.
  rewrite EP by lia. cbn [bind]. rewrite EP1. cbn [bind]. rewrite EP2. cbn [bind]. rewrite EE by lia. cbn [bind].
  rewrite EJ. cbn [bind]. rewrite EQ by lia. cbn [bind]. rewrite EQ1. cbn [bind]. rewrite EQ2. reflexivity.
Qed.
Lemma n_gen_affine_some : forall nt g s, ntl_ok nt -> nglob_dims g -> always (trand nt) 8 -> always (trand nt) 32 ->
  exists f0 g' s', forall f, f0 <= f -> n_gen_affine f nt g s = Ok (Some (g', s')).
Proof.
  intros nt g s HE DG H8 H32.
  destruct (ev_for_up (nglob * nat) (fun fuel i st => match st with None => Ok None | Some (g, s) => n_gen_row fuel nt i g s end)
    (fun _ st => nglob_dims (fst st)) 36 0 (g, s)) as (f0 & [g' s'] & _ & H); [lia|exact DG| |exists f0, g', s'; exact H].
  intros i [g1 s1] _ Hi D1. cbn [fst] in D1. destruct (gen_row_some nt i g1 s1 HE Hi D1 H8 H32) as (f0 & g2 & s2 & E).
  exists f0, (g2, s2). split; [|exact E].
  pose proof (gen_row_wp f0 nt i g1 s1 HE Hi D1) as W. rewrite E in W by lia. apply W.
Qed.
Theorem n_gen_tables_some : forall nt key g c s, ntl_ok nt -> bytes 16 key ->
  nglob_dims g -> dims3 32 4 256 (kS g) -> nctx_dims c -> always (trand nt) 8 -> always (trand nt) 32 ->
  exists f0 g' c' s', forall f, f0 <= f -> n_gen_tables f nt key g c s = Ok (Some (g', c', s')).
Proof.
  intros nt key g c s HE HK HG DS HC H8 H32. unfold n_gen_tables, sm4_setkey_enc.
  destruct (wp_ex _ _ _ (sm4_setkey_wp (tlong nt) (repeat 0%N 32) key HK eq_refl)) as (sk & ESK & Hsk).
  destruct (wp_ex _ _ _ (secret_sbox_wp sk (round_key key) (kS g) Hsk DS)) as (S' & ES' & DS' & HS').
  destruct (n_gen_affine_some nt (mkng (kP g) (kE g) (kQ g) S') s HE HG H8 H32) as (f0 & g' & s' & EA).
  pose proof (n_gen_affine_wp f0 nt (mkng (kP g) (kE g) (kQ g) S') s HE HG DS') as WA. rewrite EA in WA by lia. destruct WA as [GG ES].
  destruct (wp_ex _ _ _ (n_initMatrixL_wp nt)) as (csl & EC & Hcsl & Ecsl).
  destruct (wp_ex _ _ _ (n_combine_wp g' csl GG Hcsl c HC)) as (c' & ECC & _).
  exists f0, g', c', s'. intros f Hf. rewrite ESK. cbn [bind]. rewrite ES'. cbn [bind]. rewrite EA by exact Hf. cbn [bind].
  rewrite EC. cbn [bind]. rewrite ECC. reflexivity.
Qed.
