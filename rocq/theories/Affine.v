(** Affine transformations: generated pairs, composition, concatenation. *)
From Coq Require Import Arith NArith List Bool Lia Setoid Morphisms.
From Verif Require Import Base Tables Model Spec LinAlg Mem Cons Rand Mul Elim GenPair Com.
Import ListNotations.

(** the function on bit vectors denoted by an affine transformation *)
Definition aapp (w : width) (f : aff) (x : fvec) : fvec :=
  vadd (fapp (dim w) (mbit w (amat f)) x) (vbit w (avec f)).

Lemma aapp_ext : forall w f x y, veq (dim w) x y -> veq (dim w) (aapp w f x) (aapp w f y).
Proof. intros w f x y H. unfold aapp. rewrite H. reflexivity. Qed.

Lemma affineU_spec : forall e w f x, wfA w f -> shapeV w x ->
  exists y, affineU e w f x = Ok y /\ wfV w y /\ veq (dim w) (vbit w y) (aapp w f (vbit w x)).
Proof.
  intros e w f x [H1 H2] Hx.
  destruct (wp_exists _ _ _ (affineU_wp e w f x (wfM_typed _ _ H1) H2 Hx)) as (y & E & Hy & HB).
  exists y. auto.
Qed.

Lemma vadd_self : forall n x y, veq n (vadd (vadd x y) y) x.
Proof. intros n x y i Hi. unfold vadd. rewrite xorb_assoc, xorb_nilpotent, xorb_false_r. reflexivity. Qed.

(** f(x) = A x + c and g(y) = B y + B c undo each other when A and B are inverse *)
Lemma aff_inverse : forall w f g,
  inverse_of (dim w) (mbit w (amat f)) (mbit w (amat g)) ->
  veq (dim w) (vbit w (avec g)) (fapp (dim w) (mbit w (amat g)) (vbit w (avec f))) ->
  (forall x, veq (dim w) (aapp w g (aapp w f x)) x) /\
  (forall x, veq (dim w) (aapp w f (aapp w g x)) x).
Proof.
  intros w f g [H1 H2] Hv. split; intros x; unfold aapp.
  - rewrite fapp_vadd, Hv. rewrite <- fmul_fapp, H2, fapp_id. apply vadd_self.
  - rewrite Hv, <- fapp_vadd, <- fmul_fapp, H1, fapp_id. apply vadd_self.
Qed.

Lemma genaffinepair_wp : forall e w f fi s,
  shapeM w (amat f) -> typedV w (avec f) -> shapeA w fi ->
  wp (genaffinepair e w f fi s) (fun r => let '(g, gi, s') := r in
    wfA w g /\ wfA w gi /\
    inverse_of (dim w) (mbit w (amat g)) (mbit w (amat gi)) /\
    (forall x, veq (dim w) (aapp w gi (aapp w g x)) x) /\
    (forall x, veq (dim w) (aapp w g (aapp w gi x)) x)).
Proof.
  intros e w f fi s Hm Hv [Hmi Hvi]. unfold genaffinepair. apply wp_bind.
  eapply wp_mono; [apply genMatpair_wp; auto|]. intros [[m v] s1] (Wm & Wv & Hinv & _).
  apply wp_bind. rewrite randV_ok by auto. apply wp_ok. apply wp_bind.
  eapply wp_mono; [apply MatMulVec_wp; auto using wfM_typed; apply shape_mkv|].
  intros d [Wd Bd]. apply wp_ok.
  split; [split; [exact Wm|apply wf_randv]|]. split; [split; [exact Wv|exact Wd]|].
  split; [exact Hinv|]. cbn [amat avec] in *. apply aff_inverse; auto.
Qed.

Lemma affinemix_spec : forall e w f g mix, wfA w f -> wfA w g -> shapeA w mix ->
  exists h, affinemix e w f g mix = Ok h /\ wfA w h /\
    forall x, veq (dim w) (aapp w h x) (aapp w f (aapp w g x)).
Proof.
  intros e w f g mix Hf Hg Hm.
  destruct (wp_exists _ _ _ (affinemix_wp e w f g mix Hf Hg Hm)) as (h & E & Wh & Bm & Bv).
  exists h. split; auto. split; auto. intros x. unfold aapp.
  rewrite Bm, Bv, fmul_fapp, fapp_vadd. intros i Hi. unfold vadd.
  rewrite xorb_assoc. reflexivity.
Qed.

(** ** Concatenation, little-endian *)

Lemma Vectorcom_col : forall c vs out r,
  length vs = com_n c -> Forall (shapeV (com_src c)) vs -> typedV (com_tgt c) out ->
  Vectorcom LE c vs out = Ok r ->
  wfV (com_tgt c) r /\
  forall j, j < dim (com_tgt c) ->
    vbit (com_tgt c) r j = vbit (com_src c) (nth (j / dim (com_src c)) vs []) (j mod dim (com_src c)).
Proof.
  intros c vs out r HL Hvs Hout E. pose proof (Vectorcom_wp LE c vs out HL Hvs Hout) as H.
  rewrite E in H. simpl in H. destruct H as [Wr Br]. split; auto. intros j Hj.
  rewrite com_dims in Hj. pose proof (dim_pos (com_src c)) as P.
  destruct (div_sub (dim (com_src c)) (com_n c) j ltac:(lia) Hj) as [Dj Mj].
  rewrite <- Br by auto. f_equal. cbn [slot]. apply Nat.div_mod. lia.
Qed.

Lemma affinecom_wp : forall c fs out,
  length fs = com_n c -> Forall (wfA (com_src c)) fs ->
  shapeM (com_tgt c) (amat out) -> typedV (com_tgt c) (avec out) ->
  wp (affinecom LE c fs out) (fun h =>
    wfA (com_tgt c) h /\
    feq (dim (com_tgt c)) (mbit (com_tgt c) (amat h))
        (bdiag (dim (com_src c)) (fun q => mbit (com_src c) (nth q (map amat fs) []))) /\
    forall j, j < dim (com_tgt c) -> vbit (com_tgt c) (avec h) j =
      vbit (com_src c) (nth (j / dim (com_src c)) (map avec fs) []) (j mod dim (com_src c))).
Proof.
  intros c fs out HL Hfs Hm Hv. unfold affinecom. rewrite Forall_forall in Hfs.
  apply wp_bind. eapply wp_mono.
  { apply Matrixcom_wp; auto; [rewrite map_length; auto|].
    apply Forall_forall. intros x Hx. apply in_map_iff in Hx. destruct Hx as (f & <- & Hf).
    apply wfM_shape, (Hfs f Hf). }
  intros m [Wm Bm]. apply wp_bind.
  assert (HV : Forall (shapeV (com_src c)) (map avec fs)).
  { apply Forall_forall. intros x Hx. apply in_map_iff in Hx. destruct Hx as (f & <- & Hf).
    apply wfV_shape, (Hfs f Hf). }
  assert (HLv : length (map avec fs) = com_n c) by (rewrite map_length; auto).
  destruct (wp_exists _ _ _ (Vectorcom_wp LE c (map avec fs) (avec out) HLv HV Hv)) as (r & E & _).
  rewrite E. apply wp_ok. apply wp_ok.
  destruct (Vectorcom_col c (map avec fs) (avec out) r HLv HV Hv E) as [Wr Br].
  split; [split; auto|]. split; [exact Bm|exact Br].
Qed.

Lemma nth_map_amat : forall fs q d, q < length fs -> nth q (map amat fs) [] = amat (nth q fs d).
Proof.
  intros fs q d H. rewrite (nth_indep _ [] (amat d)) by (rewrite map_length; auto).
  apply map_nth.
Qed.
Lemma nth_map_avec : forall fs q d, q < length fs -> nth q (map avec fs) [] = avec (nth q fs d).
Proof.
  intros fs q d H. rewrite (nth_indep _ [] (avec d)) by (rewrite map_length; auto).
  apply map_nth.
Qed.

(** blockwise action: bit j of f(x) only involves block j / s *)
Lemma affinecom_action : forall c fs h x ys, length fs = com_n c ->
  feq (dim (com_tgt c)) (mbit (com_tgt c) (amat h))
      (bdiag (dim (com_src c)) (fun q => mbit (com_src c) (nth q (map amat fs) []))) ->
  (forall j, j < dim (com_tgt c) -> vbit (com_tgt c) (avec h) j =
      vbit (com_src c) (nth (j / dim (com_src c)) (map avec fs) []) (j mod dim (com_src c))) ->
  (forall j, j < dim (com_tgt c) -> vbit (com_tgt c) x j =
      vbit (com_src c) (nth (j / dim (com_src c)) ys []) (j mod dim (com_src c))) ->
  forall j d, j < dim (com_tgt c) ->
    aapp (com_tgt c) h (vbit (com_tgt c) x) j =
    aapp (com_src c) (nth (j / dim (com_src c)) fs d)
         (vbit (com_src c) (nth (j / dim (com_src c)) ys [])) (j mod dim (com_src c)).
Proof.
  intros c fs h x ys HL Bm Bv Bx j d Hj. unfold aapp, vadd.
  pose proof (dim_pos (com_src c)) as P. set (s := dim (com_src c)) in *.
  pose proof Hj as Hj'. rewrite com_dims in Hj'. fold s in Hj'.
  destruct (div_sub s (com_n c) j ltac:(lia) Hj') as [Dj Mj].
  f_equal.
  - transitivity (fapp (dim (com_tgt c)) (bdiag s (fun q => mbit (com_src c) (nth q (map amat fs) [])))
                       (vbit (com_tgt c) x) j).
    { apply (fapp_proper (dim (com_tgt c))); auto. reflexivity. }
    rewrite com_dims. fold s. rewrite bdiag_app by (auto; lia).
    rewrite (nth_map_amat fs _ d) by lia.
    apply xsum_ext. intros k Hk. f_equal.
    rewrite Bx by (rewrite com_dims; fold s; nia). rewrite sub_div, sub_mod by auto. reflexivity.
  - rewrite Bv by auto. fold s. rewrite (nth_map_avec fs _ d) by lia. reflexivity.
Qed.
