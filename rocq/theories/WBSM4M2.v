(** The white-box tables of test/WBSM4/M4RI compute SM4: tables and encryption. *)
From Coq Require Import Arith NArith ZArith List Bool Lia ZifyNat Setoid Morphisms.
From Verif Require Model Cons.
From Verif Require Import Base Spec LinAlg ModelSM4 SpecSM4 SM4 WBSM4.
From Verif Require Import ModelM4ri SpecM4ri M4ri1 M4ri2 M4ri8 ModelM4ri2 SpecM4ri2 M4ri18 ModelGf2 SpecGf2 Gf2a Gf2b Gf2c ModelSM4M WBSM4M.
Import ListNotations.
Local Open Scope nat_scope.

(** ** The matrix of L *)

Lemma csl_bits_check : forallb (fun i => forallb (fun k =>
  Bool.eqb (mbit Model.W32 csl_mat i k) (bits 32 (nth i wb_csl 0%N) k)) (seq 0 32)) (seq 0 32) = true.
Proof. vm_compute. reflexivity. Qed.
Lemma csl_m_app : forall csl x, okm 32 32 csl ->
  (forall i j, i < 32 -> j < 32 -> bitat csl i j = bits 32 (nth i wb_csl 0%N) j) -> (x < 2 ^ 32)%N ->
  veq 32 (fapp 32 (bitat csl) (bits 32 x)) (bits 32 (linL x)).
Proof.
  intros csl x _ H Hx i Hi. rewrite bits_bv32 by exact Hi. rewrite <- bv32_bit by exact Hi. rewrite <- fapp_csl by assumption.
  unfold fapp. apply xsum_ext. intros k Hk. rewrite bv32_bit by exact Hk. f_equal. rewrite H by assumption.
  pose proof csl_bits_check as C. rewrite forallb_forall in C. specialize (C i). rewrite in_seq, forallb_forall in C.
  specialize (C ltac:(lia) k). rewrite in_seq in C. symmetry. apply eqb_prop. apply C. lia.
Qed.
Lemma m_initMatrixL_wp : wp (m_initMatrixL (mzd_init 32 32)) (fun csl => okm 32 32 csl /\
  forall i j, i < 32 -> j < 32 -> bitat csl i j = bits 32 (nth i wb_csl 0%N) j).
Proof. unfold m_initMatrixL. apply (wp_bit_array 32 32); [apply init_ok|reflexivity|]. auto. Qed.

(** ** Table entries *)

(** column block d of QL times a byte *)
Definition mpart (QL : mzd) (d : nat) (s : N) : fvec := fun i =>
  xsum 8 (fun k => bitat QL i (8 * d + k) && bits 8 s k).

Lemma m_split_QL_wp : forall QL, okm 32 32 QL ->
  wp (m_split_QL QL) (fun L => length L = 4 /\ forall j, j < 4 -> okm 32 8 (nth j L (mzd_init 0 0)) /\
    forall a b, a < 32 -> b < 8 -> bitat (nth j L (mzd_init 0 0)) a b = bitat QL a (8 * j + b)).
Proof.
  intros QL HQ. unfold m_split_QL.
  apply wp_for_up with (I := fun n L => length L = 4 /\ forall j, j < n -> okm 32 8 (nth j L (mzd_init 0 0)) /\
    forall a b, a < 32 -> b < 8 -> bitat (nth j L (mzd_init 0 0)) a b = bitat QL a (8 * j + b)).
  - lia.
  - split; [reflexivity|]. intros; lia.
  - intros j L _ Hj [LL HL]. apply wp_bind.
    apply (wp_fill_all 32 8 _ (fun a b => bitat QL a (8 * j + b))
      (fun ii jj m => x <- MatGf2Get QL ii (j * 8 + jj) ;; MatGf2Set m ii jj x) (fun _ => 8)).
    + apply init_ok.
    + reflexivity.
    + intros a b M Q' Ha Hb HM HQ'. apply wp_bind, (wp_get 32 32); [exact HQ|exact Ha|lia|].
      apply (wp_set 32 8 M a b _ (bitat QL a (j * 8 + b))); auto; [apply rem_b2z|]. rewrite (Nat.mul_comm j 8). exact HQ'.
    + intros M HM EM. apply wp_aset; [lia|]. split; [rewrite length_upd; exact LL|]. intros j' Hj'.
      rewrite nth_upd by lia. destruct (Nat.eqb_spec j' j) as [->|]; [split; [exact HM|intros; apply EM; assumption]|apply HL; lia].
  - intros L H. exact H.
Qed.

Definition mentry_ok (g : mglob) (QL : mzd) (i d k : nat) (y : N) : Prop :=
  (y < 2 ^ 32)%N /\
  veq 32 (bits 32 y) (mpart QL d (at3 0%N (hS g) i d (N.to_nat (affine_n 8 (eg (hE g) i d 0) (N.of_nat k))))).

Definition QL_split (QL : mzd) (QLi : list mzd) : Prop :=
  length QLi = 4 /\ forall j, j < 4 -> okm 32 8 (nth j QLi (mzd_init 0 0)) /\
    forall a b, a < 32 -> b < 8 -> bitat (nth j QLi (mzd_init 0 0)) a b = bitat QL a (8 * j + b).

Lemma digits32 : forall n M, okm n 1 M -> n <= 32 -> wp (getDigitalFromVec M) (fun d => d = num n (col0 M)).
Proof.
  intros n M HM Hn. unfold getDigitalFromVec. eapply wp_mono; [apply (wp_digits n 32); exact HM|]. intros d ->.
  apply N.mod_small. eapply N.lt_le_trans; [apply num_lt|]. apply N.pow_le_mono_r; lia.
Qed.
Lemma get32_wp : forall M, okm 32 1 M -> wp (get32FromVec M) (fun d => d = num 32 (col0 M)).
Proof.
  intros M HM. unfold get32FromVec. rewrite (proj1 HM). cbn [Nat.eqb negb]. apply (digits32 32); [exact HM|lia].
Qed.

Lemma m_table_entry_wp : forall e g QL QLi i k d, env_ok e -> mglob_good g -> QL_split QL QLi ->
  i < 32 -> k < 256 -> d < 4 -> wp (m_table_entry e g QLi i k d) (mentry_ok g QL i d k).
Proof.
  intros e g QL QLi i k d HE ((DP & DE & DQ) & DS & RG) [LQ HQ] Hi Hk Hd. unfold m_table_entry.
  destruct (mg_E _ _ _ _ (RG i ltac:(lia)) d Hd) as ((HA & HV) & _).
  apply wp_bind, (wp_vec_u e 8); [apply init_ok|left; lia|]. intros kv Hkv Ekv.
  g3 36 5 2. fold (eg (hE g) i d 0).
  apply wp_bind. apply (wp_mulv 8 8); auto; [lia|apply vsmall_le; lia|]. intros t Ht Et.
  apply wp_bind. unfold GenMatGf2Add. apply (wp_addv 8); auto. intros kv2 Hkv2 Ekv2.
  apply wp_bind. eapply wp_mono; [apply (digits32 8); [exact Hkv2|lia]|]. intros k1 ->.
  assert (E1 : num 8 (col0 kv2) = affine_n 8 (eg (hE g) i d 0) (N.of_nat k)).
  { apply num_ext. rewrite Ekv2. intros a Ha. unfold affine_f, vadd. f_equal. rewrite Et by exact Ha.
    apply fapp_proper; [reflexivity| |exact Ha]. exact Ekv. }
  rewrite E1. assert (B1 := an_lt 8 (eg (hE g) i d 0) (N.of_nat k)). change (2 ^ N.of_nat 8)%N with 256%N in B1.
  apply wp_bind. apply (wp_get3 _ 0%N 32 4 256); [assumption|lia|lia|lia|].
  set (kd := at3 0%N (hS g) i d _).
  apply wp_bind, (wp_vec_u e 8); [exact Hkv2|left; lia|]. intros kv3 Hkv3 Ekv3.
  apply wp_bind. apply wp_aget with (d := mzd_init 0 0); [lia|]. destruct (HQ d Hd) as [Hm Em].
  apply wp_bind. apply (wp_mulv 32 8); auto; [lia|apply vsmall_le; lia|]. intros dest Hdest Edest.
  eapply wp_mono; [apply get32_wp; exact Hdest|]. intros y ->. split; [apply num_lt|].
  rewrite bits_num. intros a Ha. rewrite Edest by exact Ha. unfold mpart, fapp. apply xsum_ext. intros b Hb.
  rewrite Em by assumption. f_equal. apply Ekv3. exact Hb.
Qed.

Definition mtable_ok (g : mglob) (QL : mzd) (r : N) (T : list (list (list N))) (i d k : nat) : Prop :=
  mentry_ok g QL i d k (N.lxor (at3 0%N T i d k) (if Nat.eqb d 3 then r else 0%N)).

Lemma m_gen_table_wp : forall e g QL QLi r i T, env_ok e -> mglob_good g -> QL_split QL QLi ->
  i < 32 -> dims3 32 4 256 T ->
  wp (m_gen_table e g QLi r i T) (fun T' => dims3 32 4 256 T' /\
    (forall i', i' <> i -> nth i' T' [] = nth i' T []) /\
    forall d k, d < 4 -> k < 256 -> mtable_ok g QL r T' i d k).
Proof.
  intros e g QL QLi r i T HE HG HQ Hi DT. unfold m_gen_table.
  apply wp_for_up with (I := fun k T' => dims3 32 4 256 T' /\
    (forall i', i' <> i -> nth i' T' [] = nth i' T []) /\
    forall d k', d < 4 -> k' < k -> mtable_ok g QL r T' i d k').
  { lia. } { split; auto. split; auto. intros; lia. }
  2:{ intros T' (D & F & H). split; auto. }
  intros k T0 _ Hk (D0 & F0 & H0). apply wp_bind.
  apply wp_for_up with (I := fun d T' => dims3 32 4 256 T' /\
    (forall i', i' <> i -> nth i' T' [] = nth i' T []) /\
    (forall d' k', d' < 4 -> k' < k -> mtable_ok g QL r T' i d' k') /\
    (forall d', d' < d -> mentry_ok g QL i d' k (at3 0%N T' i d' k))).
  { lia. } { split; auto. split; auto. split; auto. intros; lia. }
  { intros d T1 _ Hd (D1 & F1 & H1 & E1). apply wp_bind.
    eapply wp_mono; [apply m_table_entry_wp with (QL := QL); auto|]. intros y Hy.
    apply wp_set3 with (d := 0%N) (n := 32) (m := 4) (l := 256); auto.
    intros T2 D2 A2 F2. split; auto. split; [intros i' Hi'; rewrite F2 by auto; auto|]. split.
    - intros d' k' Hd' Hk'. unfold mtable_ok. rewrite A2.
      destruct (Nat.eqb_spec k' k); [lia|]. rewrite !andb_false_r. apply H1; auto.
    - intros d' Hd'. rewrite A2, !Nat.eqb_refl. cbn [andb]. rewrite andb_true_r.
      destruct (Nat.eqb_spec d' d) as [->|]; auto. apply E1. lia. }
  intros T1 (D1 & F1 & H1 & E1).
  apply wp_bind. apply wp_get3 with (d := 0%N) (n := 32) (m := 4) (l := 256); auto; try lia.
  apply wp_set3 with (d := 0%N) (n := 32) (m := 4) (l := 256); auto; try lia.
  intros T2 D2 A2 F2. split; auto. split; [intros i' Hi'; rewrite F2 by auto; auto|].
  intros d k' Hd Hk'. unfold mtable_ok. rewrite A2, Nat.eqb_refl. cbn [andb].
  destruct (Nat.eqb_spec d 3) as [->|Hd3]; cbn [andb].
  - destruct (Nat.eqb_spec k' k) as [->|].
    + rewrite N.lxor_assoc, N.lxor_nilpotent, N.lxor_0_r. apply E1. lia.
    + apply (H1 3 k'); lia.
  - destruct (Nat.eq_dec k' k) as [->|].
    + rewrite N.lxor_0_r. apply E1. lia.
    + specialize (H1 d k' Hd ltac:(lia)). unfold mtable_ok in H1.
      destruct (Nat.eqb_spec d 3); [lia|]. exact H1.
Qed.

(** ** One round of table generation *)

Definition mctx_dims (c : mctx) : Prop :=
  dims2 32 3 (xM c) /\ length (xC c) = 32 /\ length (xD c) = 32 /\
  length (xSE c) = 4 /\ length (xFE c) = 4 /\ dims3 32 4 256 (xT c).

Definition mp0 (g : mglob) (i : nat) : afft := at2 nafft (hP g) i 0.
Definition mp1 (g : mglob) (i : nat) : afft := at2 nafft (hP g) i 1.
Definition mq0 (g : mglob) (i : nat) : afft := at2 nafft (hQ g) i 0.
Definition mq1 (g : mglob) (i : nat) : afft := at2 nafft (hQ g) i 1.
Definition vnum (f : afft) : N := num 32 (col0 (atrans f)).
Lemma get32_vnum : forall f, okaff 32 f -> wp (get32FromVec (atrans f)) (fun d => d = vnum f).
Proof. intros f [_ H]. unfold vnum. apply get32_wp. exact H. Qed.

Record mround_ok (g : mglob) (csl : mzd) (c : mctx) (i : nat) : Prop :=
  { mo_M : forall j, j < 3 -> okaff 32 (at2 nafft (xM c) i j) /\
      forall x, affine_n 32 (at2 nafft (xM c) i j) x = affine_n 32 (eg (hE g) i 4 1) (affine_n 32 (mp1 g (i + 1 + j)) x);
    mo_C : okaff 32 (nth i (xC c) nafft) /\
      forall x, affine_n 32 (nth i (xC c) nafft) x = affine_n 32 (mp0 g (i + 4)) (affine_n 32 (mp1 g i) x);
    mo_D : okaff 32 (nth i (xD c) nafft) /\
      forall x, affine_n 32 (nth i (xD c) nafft) x =
        N.lxor (affine_n 32 (mp0 g (i + 4)) (affine_n 32 (mq1 g i) x)) (vnum (mp0 g (i + 4)));
    mo_T : exists QL, okm 32 32 QL /\
      feq 32 (bitat QL) (fmul 32 (bitat (alin (mq0 g i))) (bitat csl)) /\
      forall d k, d < 4 -> k < 256 -> mtable_ok g QL (vnum (mq0 g i)) (xT c) i d k }.

Lemma comp_ok : forall f g L t v, okaff 32 f -> okaff 32 g -> okm 32 32 L ->
  (forall i j, i < 32 -> j < 32 -> bitat L i j = fmul 32 (bitat (alin f)) (bitat (alin g)) i j) ->
  (forall i, i < 32 -> col0 t i = fapp 32 (bitat (alin f)) (col0 (atrans g)) i) -> okm 32 1 v ->
  veq 32 (col0 v) (vadd (col0 t) (col0 (atrans f))) ->
  okaff 32 (mkafft L v) /\ forall x, affine_n 32 (mkafft L v) x = affine_n 32 f (affine_n 32 g x).
Proof.
  intros f g L t v HF HG HL EL Et Hv Ev. split; [split; assumption|]. intros x. apply an_comp; cbn [alin atrans].
  - intros i j Hi Hj. apply EL; assumption.
  - intros i Hi. rewrite Ev by exact Hi. unfold vadd. rewrite Et by exact Hi. reflexivity.
Qed.

(** adding a constant to the vector *)
Lemma an_shift : forall L v v' f, veq 32 (col0 v') (vadd (col0 (atrans f)) (col0 v)) ->
  forall x, affine_n 32 (mkafft L v') x = N.lxor (affine_n 32 (mkafft L v) x) (vnum f).
Proof.
  intros L v v' f H x. apply (bits_ext 32); [apply an_lt|apply lxor_lt; [apply an_lt|apply num_lt]|].
  intros i Hi. rewrite bits_lxor. unfold vnum. rewrite bits_num by exact Hi. rewrite !an_bits by exact Hi.
  unfold affine_f, vadd. cbn [alin atrans]. rewrite H by exact Hi. unfold vadd.
  destruct (fapp 32 (bitat L) (bits 32 x) i), (col0 (atrans f) i), (col0 v i); reflexivity.
Qed.

Section Gen.
Variables (e : menv) (g : mglob) (csl : mzd).
Hypothesis HE : env_ok e.
Hypothesis HG : mglob_good g.
Hypothesis HL : okm 32 32 csl.

Lemma WP : forall k, k < 36 -> okaff 32 (mp0 g k) /\ okaff 32 (mp1 g k).
Proof. intros k Hk. destruct HG as (_ & _ & RG). destruct (mg_P _ _ _ _ (RG k Hk)) as (A & B & _). auto. Qed.
Lemma WQ : forall k, k < 36 -> okaff 32 (mq0 g k) /\ okaff 32 (mq1 g k).
Proof. intros k Hk. destruct HG as (_ & _ & RG). destruct (mg_Q _ _ _ _ (RG k Hk)) as (A & B & _). auto. Qed.

Lemma mulM : forall f h (Q : mzd -> Prop), okaff 32 f -> okm 32 32 h ->
  (forall L, okm 32 32 L -> (forall i j, i < 32 -> j < 32 -> bitat L i j = fmul 32 (bitat (alin f)) (bitat h) i j) -> Q L) ->
  wp (GenMatGf2Mul e (alin f) h) Q.
Proof. intros f h Q [HF _] Hh HQ. apply (wp_gmul 32 32 32); auto; try lia; apply small_le; lia. Qed.
Lemma mulV : forall f v (Q : mzd -> Prop), okaff 32 f -> okm 32 1 v ->
  (forall t, okm 32 1 t -> (forall i, i < 32 -> col0 t i = fapp 32 (bitat (alin f)) (col0 v) i) -> Q t) ->
  wp (GenMatGf2Mul e (alin f) v) Q.
Proof. intros f v Q [HF _] Hv HQ. apply (wp_mulv 32 32); auto; [lia|apply vsmall_le; lia]. Qed.

Lemma m_gen_M_wp : forall i M, i < 32 -> dims2 32 3 M ->
  wp (m_gen_M e g i M) (fun M' => dims2 32 3 M' /\ (forall r j, r <> i -> at2 nafft M' r j = at2 nafft M r j) /\
    forall j, j < 3 -> okaff 32 (at2 nafft M' i j) /\
      forall x, affine_n 32 (at2 nafft M' i j) x = affine_n 32 (eg (hE g) i 4 1) (affine_n 32 (mp1 g (i + 1 + j)) x)).
Proof.
  intros i M Hi DM. pose proof HG as ((DP & DE & DQ) & DS & RG). unfold m_gen_M.
  pose proof (mg_EC _ _ _ _ (RG i ltac:(lia))) as WEC.
  apply wp_for_up with (I := fun n M' => dims2 32 3 M' /\ (forall r j, r <> i -> at2 nafft M' r j = at2 nafft M r j) /\
    forall j, j < n -> okaff 32 (at2 nafft M' i j) /\
      forall x, affine_n 32 (at2 nafft M' i j) x = affine_n 32 (eg (hE g) i 4 1) (affine_n 32 (mp1 g (i + 1 + j)) x)).
  - lia.
  - split; [exact DM|]. split; [reflexivity|]. intros; lia.
  - intros j M1 _ Hj (D1 & F1 & A1).
    g3 36 5 2. fold (eg (hE g) i 4 1). g2 36 2. fold (mp1 g (i + 1 + j)).
    destruct (WP (i + 1 + j) ltac:(lia)) as [_ W1].
    apply wp_bind. apply mulM; auto; [apply W1|]. intros L HL1 EL.
    apply wp_bind. apply mulV; auto; [apply W1|]. intros t Ht Et.
    apply wp_bind. apply (wp_addv 32); auto; [apply WEC|]. intros v Hv Ev.
    apply (wp_set2 _ nafft 32 3); [assumption|lia|lia|]. intros M2 D2 A2 _. split; [exact D2|]. split.
    + intros r j' Hr. rewrite A2. destruct (Nat.eqb_spec r i); [lia|]. apply F1. exact Hr.
    + intros j' Hj'. rewrite A2, Nat.eqb_refl. cbn [andb]. destruct (Nat.eqb_spec j' j) as [->|]; [|apply A1; lia].
      apply (comp_ok _ _ L t v); assumption.
  - intros M' H. exact H.
Qed.

Lemma m_combine_round_wp : forall c i, mctx_dims c -> i < 32 ->
  (forall r, r < i -> mround_ok g csl c r) ->
  wp (m_combine_round e g csl i c) (fun c' => mctx_dims c' /\ forall r, r < S i -> mround_ok g csl c' r).
Proof.
  intros c i (DM & LC & LD & LS & LF & DT) Hi HR. pose proof HG as ((DP & DE & DQ) & DS & RG). unfold m_combine_round.
  destruct (WQ i ltac:(lia)) as [WQ0 WQ1]. destruct (WP (i + 4) ltac:(lia)) as [WP4 _]. destruct (WP i ltac:(lia)) as [_ WPi].
  apply wp_bind. eapply wp_mono; [apply m_gen_M_wp; auto|]. intros M' (DM' & FM & AM).
  g2 36 2. fold (mq0 g i).
  apply wp_bind. apply mulM; auto. intros QL HQL EQL.
  apply wp_bind. eapply wp_mono; [apply m_split_QL_wp; exact HQL|]. intros QLi HQLi.
  apply wp_bind. eapply wp_mono; [apply get32_vnum; exact WQ0|]. intros r ->.
  apply wp_bind. eapply wp_mono; [apply m_gen_table_wp with (QL := QL); auto|]. intros T' (DT' & FT & AT).
  g2 36 2. fold (mp0 g (i + 4)). g2 36 2. fold (mp1 g i).
  apply wp_bind. apply mulM; auto; [apply WPi|]. intros cl Hcl Ecl.
  apply wp_bind. apply mulV; auto; [apply WPi|]. intros t Ht Et.
  apply wp_bind. apply (wp_addv 32); auto; [apply WP4|]. intros cv Hcv Ecv.
  apply wp_bind. apply wp_aset; [lia|].
  g2 36 2. fold (mq1 g i).
  apply wp_bind. apply mulM; auto; [apply WQ1|]. intros dl Hdl Edl.
  apply wp_bind. apply mulV; auto; [apply WQ1|]. intros t2 Ht2 Et2.
  apply wp_bind. apply (wp_addv 32); auto; [apply WP4|]. intros dv Hdv Edv.
  apply wp_bind. apply (wp_addv 32); auto; [apply WP4|]. intros dv2 Hdv2 Edv2.
  apply wp_bind. apply wp_aset; [lia|]. apply wp_ok.
  assert (CC : okaff 32 (mkafft cl cv) /\ forall x, affine_n 32 (mkafft cl cv) x = affine_n 32 (mp0 g (i + 4)) (affine_n 32 (mp1 g i) x)).
  { apply (comp_ok _ _ cl t cv); auto. rewrite Ecv. intros a _. apply xorb_comm. }
  assert (CD : okaff 32 (mkafft dl dv) /\ forall x, affine_n 32 (mkafft dl dv) x = affine_n 32 (mp0 g (i + 4)) (affine_n 32 (mq1 g i) x)).
  { apply (comp_ok _ _ dl t2 dv); auto. rewrite Edv. intros a _. apply xorb_comm. }
  split.
  { unfold mctx_dims. cbn [xM xC xD xSE xFE xT]. rewrite !length_upd. auto 10. }
  intros r Hr. destruct (Nat.eq_dec r i) as [->|Hne].
  - split; cbn [xM xC xD xT].
    + exact AM.
    + rewrite nth_upd, Nat.eqb_refl by lia. exact CC.
    + rewrite nth_upd, Nat.eqb_refl by lia. split; [split; assumption|]. intros x.
      rewrite (an_shift dl dv dv2 (mp0 g (i + 4))) by exact Edv2. rewrite (proj2 CD). reflexivity.
    + exists QL. split; [exact HQL|]. split; [|exact AT]. intros a b Ha Hb. apply EQL; assumption.
  - assert (Hlt : r < i) by lia. destruct (HR r Hlt) as [R1 R2 R3 (QL' & R4 & R5 & R6)].
    split; cbn [xM xC xD xT].
    + intros j Hj. rewrite FM by auto. apply R1. auto.
    + rewrite nth_upd by lia. destruct (Nat.eqb_spec r i); [lia|]. exact R2.
    + rewrite nth_upd by lia. destruct (Nat.eqb_spec r i); [lia|]. exact R3.
    + exists QL'. split; auto. split; auto. intros d k Hd Hk.
      unfold mtable_ok, at3. rewrite FT by auto. apply R6; auto.
Qed.

Definition same_map (f h : afft) : Prop := okaff 32 f /\ forall x, affine_n 32 f x = affine_n 32 h x.
Lemma m_copy_wp : forall f, okaff 32 f -> wp (m_copy_aff f) (fun h => same_map h f).
Proof.
  intros f [H1 H2]. unfold m_copy_aff. apply wp_bind, (wp_copy 32 32); [exact H1|lia|]. intros L HL1 EL.
  apply wp_bind, (wp_copy 32 1); [exact H2|lia|]. intros v Hv Ev. apply wp_ok. split; [split; assumption|].
  intros x. apply num_ext. apply affine_f_ext; [|intros i Hi; apply Ev; exact Hi|reflexivity]. intros i j Hi _. apply EL. exact Hi.
Qed.

Record mctx_good (c : mctx) : Prop :=
  { cm_T : mctx_dims c;
    cm_R : forall r, r < 32 -> mround_ok g csl c r;
    cm_S : forall i, i < 4 -> same_map (nth i (xSE c) nafft) (mp0 g i);
    cm_F : forall i, i < 4 -> same_map (nth i (xFE c) nafft) (mp1 g (32 + i)) }.

Lemma m_combine_wp : forall c, mctx_dims c -> wp (m_combine_tables e g csl c) mctx_good.
Proof.
  intros c HC. unfold m_combine_tables. apply wp_bind.
  apply wp_for_up with (I := fun i c => mctx_dims c /\ forall r, r < i -> mround_ok g csl c r).
  { lia. } { split; auto. intros; lia. }
  { intros i c' _ Hi [T R]. apply m_combine_round_wp; auto. }
  clear c HC. intros c [HC HR]. pose proof HG as ((DP & DE & DQ) & DS & RG).
  apply wp_for_up with (I := fun i c => mctx_dims c /\ (forall r, r < 32 -> mround_ok g csl c r) /\
    (forall j, j < i -> same_map (nth j (xSE c) nafft) (mp0 g j)) /\
    (forall j, j < i -> same_map (nth j (xFE c) nafft) (mp1 g (32 + j)))).
  { lia. } { split; auto. split; auto. split; intros; lia. }
  2:{ intros c' (A & B & C & D). split; auto. }
  clear c HC HR. intros i c _ Hi ((DM & LC & LD & LS & LF & DT) & HR & HS & HF).
  g2 36 2. fold (mp0 g i). apply wp_bind. eapply wp_mono; [apply m_copy_wp, WP; lia|]. intros p Hp.
  apply wp_bind. apply wp_aset; [lia|].
  g2 36 2. fold (mp1 g (32 + i)). apply wp_bind. eapply wp_mono; [apply m_copy_wp, WP; lia|]. intros q Hq.
  apply wp_bind. apply wp_aset; [lia|]. apply wp_ok. split; [|split; [|split]].
  - unfold mctx_dims. cbn [xM xC xD xSE xFE xT]. rewrite !length_upd. auto 10.
  - intros r Hr. destruct (HR r Hr) as [R1 R2 R3 R4]. split; auto.
  - intros j Hj. cbn [xSE]. rewrite nth_upd by lia. destruct (Nat.eqb_spec j i) as [->|]; [exact Hp|apply HS; lia].
  - intros j Hj. cbn [xFE]. rewrite nth_upd by lia. destruct (Nat.eqb_spec j i) as [->|]; [exact Hq|apply HF; lia].
Qed.

(** ** Encryption *)

Variables (c : mctx) (rk : nat -> N).
Hypothesis HC : mctx_good c.
Hypothesis HS : forall i d j, i < 32 -> d < 4 -> j < 256 -> sbox_ok rk (hS g) i d j.
Hypothesis HB : forall i j, i < 32 -> j < 32 -> bitat csl i j = bits 32 (nth i wb_csl 0%N) j.

Lemma mparts_sum : forall QL s0 s1 s2 s3 i, (s0 < 256)%N -> (s1 < 256)%N -> (s2 < 256)%N -> (s3 < 256)%N -> i < 32 ->
  xorb (xorb (xorb (mpart QL 0 s0 i) (mpart QL 1 s1 i)) (mpart QL 2 s2 i)) (mpart QL 3 s3 i)
  = fapp 32 (bitat QL) (bits 32 (word_of s0 s1 s2 s3)) i.
Proof.
  intros QL s0 s1 s2 s3 i H0 H1 H2 H3 Hi. unfold fapp, mpart.
  assert (B : forall q k, q < 4 -> k < 8 -> bits 8 (nth q [s0; s1; s2; s3] 0%N) k = bits 32 (word_of s0 s1 s2 s3) (8 * q + k)).
  { intros. symmetry. apply bits_word; assumption. }
  generalize dependent (bits 32 (word_of s0 s1 s2 s3)). intros w B.
  change 32 with (8 + (8 + (8 + 8))). rewrite !xsum_add.
  rewrite !xorb_assoc. f_equal; [|f_equal; [|f_equal]]; apply xsum_ext; intros k Hk.
  - f_equal. apply (B 0 k); lia.
  - f_equal. apply (B 1 k); lia.
  - rewrite !Nat.add_assoc. f_equal. apply (B 2 k); lia.
  - rewrite !Nat.add_assoc. f_equal. apply (B 3 k); lia.
Qed.

Lemma mlookup : forall i QL Y d, i < 32 -> d < 4 ->
  (forall d k, d < 4 -> k < 256 -> mtable_ok g QL (vnum (mq0 g i)) (xT c) i d k) ->
  let t := at3 0%N (xT c) i d (N.to_nat (affine_n 8 (eg (hE g) i d 1) (byte Y (N.of_nat (3 - d))))) in
  let t' := N.lxor t (if Nat.eqb d 3 then vnum (mq0 g i) else 0%N) in
  (t' < 2 ^ 32)%N /\ veq 32 (bits 32 t') (mpart QL d (sbox (byte (N.lxor Y (rk i)) (N.of_nat (3 - d))))).
Proof.
  intros i QL Y d Hi Hd HT t t'. destruct HG as (_ & _ & RG).
  destruct (mg_E _ _ _ _ (RG i ltac:(lia)) d Hd) as (W0 & W1 & _ & _ & I10).
  assert (B := an_lt 8 (eg (hE g) i d 1) (byte Y (N.of_nat (3 - d)))).
  change (2 ^ N.of_nat 8)%N with 256%N in *.
  destruct (HT d (N.to_nat (affine_n 8 (eg (hE g) i d 1) (byte Y (N.of_nat (3 - d))))) Hd ltac:(lia)) as [B' E'].
  fold t in B', E'. fold t' in B', E'. split; auto.
  rewrite N2Nat.id in E'. rewrite I10 in E' by apply byte_bound.
  pose proof (byte_bound Y (N.of_nat (3 - d))) as BY.
  rewrite (HS i d (N.to_nat (byte Y (N.of_nat (3 - d)))) Hi Hd ltac:(lia)) in E'.
  rewrite N2Nat.id, <- byte_lxor in E'. exact E'.
Qed.

Lemma lxor_lt32 : forall x y, (x < 2 ^ 32)%N -> (y < 2 ^ 32)%N -> (N.lxor x y < 2 ^ 32)%N.
Proof. intros. apply (lxor_lt 32); assumption. Qed.

#[local] Strategy opaque [num affine_n bits].
Lemma mSK32_wp : forall i Y, i < 32 -> (Y < 2 ^ 32)%N ->
  SK32 (xT c) i (affine_n 32 (eg (hE g) i 4 1) Y) = Ok (affine_n 32 (mq0 g i) (linL (tau (N.lxor Y (rk i))))).
Proof.
  intros i Y Hi HY. pose proof HG as (_ & _ & RG). pose proof (RG i ltac:(lia)) as RGi.
  rewrite (mg_ECa _ _ _ _ RGi Y HY).
  assert (B8 : forall d y, (affine_n 8 (eg (hE g) i d 1) y < 256)%N) by (intros; apply (an_lt 8)).
  destruct (byte_word _ _ _ _ (B8 0 (byte Y 3)) (B8 1 (byte Y 2)) (B8 2 (byte Y 1)) (B8 3 (byte Y 0))) as (E3 & E2 & E1 & E0).
  set (a := word_of _ _ _ _) in *. unfold SK32.
  change 24%N with (8 * 3)%N. change 16%N with (8 * 2)%N. change (N.shiftr a 8) with (N.shiftr a (8 * 1)).
  replace (N.land a 255) with (N.land (N.shiftr a (8 * 0)) 255) by reflexivity.
  rewrite !land_byte, E3, E2, E1, E0.
  destruct (cm_T _ HC) as (_ & _ & _ & _ & _ & DT).
  destruct (cm_R _ HC i Hi) as [_ _ _ (QL & WQL & FQL & AT)].
  pose proof (mlookup i QL Y 0 Hi ltac:(lia) AT) as [Q0 P0].
  pose proof (mlookup i QL Y 1 Hi ltac:(lia) AT) as [Q1 P1].
  pose proof (mlookup i QL Y 2 Hi ltac:(lia) AT) as [Q2 P2].
  pose proof (mlookup i QL Y 3 Hi ltac:(lia) AT) as [Q3 P3].
  cbn [Nat.sub Nat.eqb N.of_nat] in P0, P1, P2, P3, Q0, Q1, Q2, Q3.
  change (N.pos (Pos.of_succ_nat 2)) with 3%N in *. change (N.pos (Pos.of_succ_nat 1)) with 2%N in *.
  change (N.pos (Pos.of_succ_nat 0)) with 1%N in *.
  rewrite N.lxor_0_r in P0, P1, P2, Q0, Q1, Q2.
  set (t0 := at3 0%N (xT c) i 0 _) in *. set (t1 := at3 0%N (xT c) i 1 _) in *.
  set (t2 := at3 0%N (xT c) i 2 _) in *. set (t3 := at3 0%N (xT c) i 3 _) in *.
  assert (Br : (vnum (mq0 g i) < 2 ^ 32)%N) by apply num_lt.
  assert (Q3' : (t3 < 2 ^ 32)%N).
  { replace t3 with (N.lxor (N.lxor t3 (vnum (mq0 g i))) (vnum (mq0 g i))).
    - apply lxor_lt32; auto.
    - rewrite N.lxor_assoc, N.lxor_nilpotent, N.lxor_0_r. reflexivity. }
  apply Cons.wp_eq.
  apply wp_bind. apply wp_get3 with (d := 0%N) (n := 32) (m := 4) (l := 256); auto; try lia; [pose proof (B8 0 (byte Y 3)); lia|].
  apply wp_bind. apply wp_get3 with (d := 0%N) (n := 32) (m := 4) (l := 256); auto; try lia; [pose proof (B8 1 (byte Y 2)); lia|].
  apply wp_bind. apply wp_get3 with (d := 0%N) (n := 32) (m := 4) (l := 256); auto; try lia; [pose proof (B8 2 (byte Y 1)); lia|].
  apply wp_bind. apply wp_get3 with (d := 0%N) (n := 32) (m := 4) (l := 256); auto; try lia; [pose proof (B8 3 (byte Y 0)); lia|].
  fold t0 t1 t2 t3. apply wp_ok.
  set (z := tau (N.lxor Y (rk i))).
  apply (bits_ext 32); [repeat apply lxor_lt32; auto|apply an_lt|].
  intros j Hj. rewrite an_bits by exact Hj. unfold affine_f, vadd.
  assert (F : fapp 32 (bitat (alin (mq0 g i))) (bits 32 (linL z)) j = fapp 32 (bitat QL) (bits 32 z) j).
  { symmetry. assert (V : veq 32 (fapp 32 (bitat QL) (bits 32 z)) (fapp 32 (bitat (alin (mq0 g i))) (bits 32 (linL z)))).
    { rewrite FQL, fmul_fapp, (csl_m_app csl z HL HB) by apply tau_bound. reflexivity. }
    apply V. auto. }
  rewrite F. unfold z, tau at 1.
  rewrite <- mparts_sum by (auto; apply sbox_bound, byte_bound).
  rewrite <- P0, <- P1, <- P2, <- P3 by auto. rewrite !bits_lxor.
  unfold vnum. rewrite bits_num by exact Hj.
  destruct (bits 32 t0 j), (bits 32 t1 j), (bits 32 t2 j), (bits 32 t3 j), (col0 (atrans (mq0 g i)) j); reflexivity.
Qed.

Lemma m_round_step : forall i X0 X1 X2 X3, i < 32 ->
  (X0 < 2 ^ 32)%N -> (X1 < 2 ^ 32)%N -> (X2 < 2 ^ 32)%N -> (X3 < 2 ^ 32)%N ->
  m_round e c i (affine_n 32 (mp0 g i) X0) (affine_n 32 (mp0 g (i + 1)) X1) (affine_n 32 (mp0 g (i + 2)) X2) (affine_n 32 (mp0 g (i + 3)) X3)
  = Ok (affine_n 32 (mp0 g (i + 4)) (N.lxor X0 (linL (tau (xor4 X1 X2 X3 (rk i)))))).
Proof.
  intros i X0 X1 X2 X3 Hi B0 B1 B2 B3. pose proof HG as (_ & _ & RG).
  destruct (cm_T _ HC) as (DM & LC & LD & _).
  destruct (cm_R _ HC i Hi) as [RM (WC & AC) (WD & AD) _].
  assert (PI : forall k X, k < 36 -> (X < 2 ^ 32)%N -> affine_n 32 (mp1 g k) (affine_n 32 (mp0 g k) X) = X).
  { intros k X Hk HX. destruct (mg_P _ _ _ _ (RG k Hk)) as (_ & _ & _ & I & _). apply I. exact HX. }
  destruct (RM 0 ltac:(lia)) as [W0 A0]. destruct (RM 1 ltac:(lia)) as [W1 A1]. destruct (RM 2 ltac:(lia)) as [W2 A2].
  apply Cons.wp_eq. unfold m_round.
  g2 32 3. rewrite apply_u32 by auto. cbn [bind].
  g2 32 3. rewrite apply_u32 by auto. cbn [bind].
  g2 32 3. rewrite apply_u32 by auto. cbn [bind].
  rewrite A0, A1, A2. rewrite Nat.add_0_r.
  replace (i + 1 + 1) with (i + 2) by lia. replace (i + 1 + 2) with (i + 3) by lia.
  rewrite !PI by (auto; lia).
  rewrite <- an_xor3. rewrite mSK32_wp by (auto; repeat apply lxor_lt32; auto). cbn [bind].
  apply wp_bind. apply wp_aget with (d := nafft); [lia|]. rewrite apply_u32 by auto. cbn [bind].
  apply wp_bind. apply wp_aget with (d := nafft); [lia|]. rewrite apply_u32 by auto. cbn [bind].
  apply wp_ok. rewrite AC, AD, PI by (auto; lia).
  destruct (mg_Q _ _ _ _ (RG i ltac:(lia))) as (_ & _ & _ & IQ & _).
  fold (mq0 g i) in IQ. fold (mq1 g i) in IQ.
  set (z := linL (tau (N.lxor (N.lxor (N.lxor X1 X2) X3) (rk i)))).
  assert (Bz : (z < 2 ^ 32)%N) by (apply linL_bound, tau_bound).
  rewrite IQ by exact Bz.
  assert (Ez : z = linL (tau (xor4 X1 X2 X3 (rk i)))).
  { unfold z, xor4. rewrite !N.lxor_assoc. reflexivity. }
  rewrite <- Ez. clearbody z. rewrite an_xor. unfold vnum. rewrite N.lxor_assoc. reflexivity.
Qed.

Lemma m_enc_ok : forall IN OUT, bytes 16 IN -> length OUT = 16 -> m_wb_enc e IN OUT c = Ok (sm4_block rk IN).
Proof.
  intros IN OUT [LI FI] LO. unfold m_wb_enc. pose proof HG as (_ & _ & RG).
  rewrite !GET32_ok by (auto; lia). cbn [bind].
  change (word_of (nth 0 IN 0%N) (nth (0 + 1) IN 0%N) (nth (0 + 2) IN 0%N) (nth (0 + 3) IN 0%N)) with (be_word IN 0).
  change (word_of (nth 4 IN 0%N) (nth (4 + 1) IN 0%N) (nth (4 + 2) IN 0%N) (nth (4 + 3) IN 0%N)) with (be_word IN 1).
  change (word_of (nth 8 IN 0%N) (nth (8 + 1) IN 0%N) (nth (8 + 2) IN 0%N) (nth (8 + 3) IN 0%N)) with (be_word IN 2).
  change (word_of (nth 12 IN 0%N) (nth (12 + 1) IN 0%N) (nth (12 + 2) IN 0%N) (nth (12 + 3) IN 0%N)) with (be_word IN 3).
  assert (PI : forall k X, k < 36 -> (X < 2 ^ 32)%N -> affine_n 32 (mp1 g k) (affine_n 32 (mp0 g k) X) = X).
  { intros k X Hk HX. destruct (mg_P _ _ _ _ (RG k Hk)) as (_ & _ & _ & I & _). apply I. exact HX. }
  destruct (cm_T _ HC) as (_ & _ & _ & LS & LF & _).
  set (X := Xs (enc_F rk) (quad_of IN)).
  pose proof (Xs_enc_bound rk IN FI) as BX. fold X in BX.
  apply Cons.wp_eq.
  do 4 (apply wp_bind; apply wp_aget with (d := nafft); [lia|];
    rewrite apply_u32 by (auto; apply (cm_S _ HC); lia); cbn [bind]).
  rewrite !(fun i H => proj2 (cm_S _ HC i H)) by lia.
  apply wp_bind.
  apply wp_for_up with (I := fun i (st : N * N * N * N) =>
    st = (affine_n 32 (mp0 g i) (X i), affine_n 32 (mp0 g (i + 1)) (X (i + 1)), affine_n 32 (mp0 g (i + 2)) (X (i + 2)),
          affine_n 32 (mp0 g (i + 3)) (X (i + 3)))).
  { lia. } { reflexivity. }
  { intros i [[[x0 x1] x2] x3] _ Hi E. injection E as -> -> -> ->.
    rewrite m_round_step by (auto; lia). cbn [bind]. apply wp_ok.
    replace (S i) with (i + 1) by lia. replace (i + 1 + 1) with (i + 2) by lia. replace (i + 1 + 2) with (i + 3) by lia.
    replace (i + 1 + 3) with (i + 4) by lia. f_equal. f_equal. unfold X. rewrite Xs_step. reflexivity. }
  intros [[[x0 x1] x2] x3] E. injection E as -> -> -> ->.
  do 4 (apply wp_bind; apply wp_aget with (d := nafft); [lia|];
    rewrite apply_u32 by (auto; apply (cm_F _ HC); lia); cbn [bind]).
  rewrite !(fun i H => proj2 (cm_F _ HC i H)) by lia.
  cbn [Nat.add]. rewrite !PI by (auto; lia).
  rewrite sm4_block_Xs. fold X. generalize (X 35) (X 34) (X 33) (X 32). clear - LO. intros y3 y2 y1 y0.
  change PUT32 with PUT_ULONG_BE.
  apply wp_bind. apply wp_PUT; [lia|]. intros o1 L1 N1.
  apply wp_bind. apply wp_PUT; [lia|]. intros o2 L2 N2.
  apply wp_bind. apply wp_PUT; [lia|]. intros o3 L3 N3.
  apply wp_PUT; [lia|]. intros o4 L4 N4.
  apply list_ext with (d := 0%N); [rewrite L4, L3, L2, L1, LO; reflexivity|].
  intros k Hk. rewrite N4, N3, N2, N1. rewrite L4, L3, L2, L1, LO in Hk. clear - Hk.
  do 16 (destruct k as [|k]; [reflexivity|]). exfalso. lia.
Qed.
End Gen.

(** ** The whole program *)
Theorem m_wb_correct : forall fuel e key g c s, env_ok e -> bytes 16 key ->
  mglob_dims g -> dims3 32 4 256 (hS g) -> mctx_dims c ->
  wp (m_gen_tables fuel e key g c s) (fun o => match o with
    | None => True
    | Some (g', c', s') => mglob_dims g' /\ dims3 32 4 256 (hS g') /\ mctx_dims c' /\
        forall IN OUT, bytes 16 IN -> length OUT = 16 -> m_wb_enc e IN OUT c' = Ok (SM4_encrypt key IN)
    end).
Proof.
  intros fuel e key g c s HE HK HG DS HC. unfold m_gen_tables, sm4_setkey_enc. apply wp_bind.
  eapply wp_mono; [apply sm4_setkey_wp; auto; reflexivity|]. intros sk Hsk.
  apply wp_bind. eapply wp_mono; [apply secret_sbox_wp with (rk := round_key key); auto|]. intros S' [DS' HS'].
  apply wp_bind. eapply wp_mono; [apply m_gen_affine_wp; auto|]. intros [[g' s']|]; [|intros _; apply wp_ok; exact I].
  intros [GG ES]. cbn [hS] in ES.
  apply wp_bind. eapply wp_mono; [apply m_initMatrixL_wp|]. intros csl [Hcsl Ecsl].
  apply wp_bind. eapply wp_mono; [apply m_combine_wp; auto|]. intros c' CG. apply wp_ok.
  split; [apply GG|]. split; [rewrite ES; exact DS'|]. split; [apply (cm_T _ _ _ CG)|].
  intros IN OUT HI HO. unfold SM4_encrypt. apply (m_enc_ok e g' csl HE GG Hcsl c' (round_key key) CG); auto.
  intros i d j Hi Hd Hj. rewrite ES. apply HS'; auto.
Qed.

(** With fair random numbers the generation terminates *)
Definition fair_both (fuel : nat) (e : menv) : Prop := fair fuel 8 (erand e) /\ fair fuel 32 (erand e).
Lemma wp_and : forall A (c : res A) P Q, wp c P -> wp c Q -> wp c (fun x => P x /\ Q x).
Proof. intros A c P Q H1 H2. destruct c; [split; assumption|destruct H1]. Qed.
Lemma gen_E_some : forall fuel e i E s, env_ok e -> i < 36 -> dims3 36 5 2 E -> fair_both fuel e -> s mod 3 = 0 ->
  wp (m_gen_E fuel e i E s) (fun o => exists E' s', o = Some (E', s') /\ s' mod 3 = 0).
Proof.
  intros fuel e i E s HE Hi DE [F8 F32] Hs. unfold m_gen_E.
  apply wp_for_up with (I := fun n (o : option (list (list (list afft)) * nat)) =>
    exists E' s', o = Some (E', s') /\ s' mod 3 = 0 /\ dims3 36 5 2 E').
  - lia.
  - exists E, s. auto.
  - intros j o _ Hj (E1 & s1 & -> & H1 & D1). apply wp_bind.
    eapply wp_mono; [apply (fair_some 8); auto; [lia|apply vsmall_le; lia]|]. intros o (f & fi & s2 & -> & H2).
    w3 36 5 2. intros E2 D2 A2 _. w3 36 5 2. intros E3 D3 A3 _. apply wp_ok. exists E3, s2. auto.
  - intros o (E' & s' & -> & H & _). exists E', s'. auto.
Qed.
Lemma gen_row_some : forall fuel e i g s, env_ok e -> i < 36 -> mglob_dims g -> fair_both fuel e -> s mod 3 = 0 ->
  wp (m_gen_row fuel e i g s) (fun o => exists g' s', o = Some (g', s') /\ s' mod 3 = 0).
Proof.
  intros fuel e i g s HE Hi (DP & DE & DQ) HF Hs. unfold m_gen_row.
  apply wp_bind. eapply wp_mono; [apply (fair_some 32); auto; [lia|apply vsmall_le; lia|apply HF]|].
  intros o (p & pi & s1 & -> & H1).
  w2 36 2. intros P1 DP1 AP1 _. w2 36 2. intros P2 DP2 AP2 _.
  apply wp_bind. eapply wp_mono; [apply wp_and; [apply gen_E_wp; auto|apply (gen_E_some fuel e i (hE g) s1); auto]|].
  intros o [Ho (E1 & s2 & -> & H2)]. destruct Ho as (DE1 & FE1 & GE1).
  apply wp_bind. eapply wp_mono; [apply join_E_wp; auto|]. intros E2 _.
  apply wp_bind. eapply wp_mono; [apply (fair_some 32); auto; [lia|apply vsmall_le; lia|apply HF]|].
  intros o (q & qi & s3 & -> & H3).
  w2 36 2. intros Q1 DQ1 AQ1 _. w2 36 2. intros Q2 DQ2 AQ2 _. apply wp_ok. eauto.
Qed.
Lemma m_gen_affine_some : forall fuel e g s, env_ok e -> mglob_dims g -> fair_both fuel e -> s mod 3 = 0 ->
  wp (m_gen_affine fuel e g s) (fun o => exists g' s', o = Some (g', s') /\ s' mod 3 = 0).
Proof.
  intros fuel e g s HE DG HF Hs. unfold m_gen_affine.
  apply wp_for_up with (I := fun i (o : option (mglob * nat)) => exists g' s', o = Some (g', s') /\ s' mod 3 = 0 /\ mglob_dims g').
  - lia.
  - exists g, s. auto.
  - intros i o _ Hi (g1 & s1 & -> & H1 & D1).
    eapply wp_mono; [apply wp_and; [apply gen_row_wp; auto|apply (gen_row_some fuel e i g1 s1); auto]|].
    intros o [Ho (g2 & s2 & -> & H2)]. exists g2, s2. split; [reflexivity|]. split; [exact H2|apply Ho].
  - intros o (g' & s' & -> & H & _). eauto.
Qed.
Lemma m_gen_tables_some : forall fuel e key g c s, env_ok e -> bytes 16 key ->
  mglob_dims g -> dims3 32 4 256 (hS g) -> mctx_dims c -> fair_both fuel e -> s mod 3 = 0 ->
  wp (m_gen_tables fuel e key g c s) (fun o => exists g' c' s', o = Some (g', c', s') /\ s' mod 3 = 0).
Proof.
  intros fuel e key g c s HE HK HG DS HC HF Hs. unfold m_gen_tables, sm4_setkey_enc. apply wp_bind.
  eapply wp_mono; [apply sm4_setkey_wp; auto; reflexivity|]. intros sk Hsk.
  apply wp_bind. eapply wp_mono; [apply secret_sbox_wp with (rk := round_key key); auto|]. intros S' [DS' HS'].
  apply wp_bind. eapply wp_mono; [apply wp_and; [apply m_gen_affine_wp; auto|apply (m_gen_affine_some fuel e _ s); auto]|].
  intros o [Ho (g' & s' & -> & H3)]. destruct Ho as [GG ES].
  apply wp_bind. eapply wp_mono; [apply m_initMatrixL_wp|]. intros csl [Hcsl Ecsl].
  apply wp_bind. eapply wp_mono; [apply m_combine_wp; auto|]. intros c' CG. apply wp_ok. eauto.
Qed.
