(** C105 to C107: random matrices, affine maps and the other functions of the layer over NTL. *)
From Coq Require Import Arith NArith ZArith List Bool Lia Setoid Morphisms.
From Verif Require Import Base Spec LinAlg SpecGf2 Gf2a Gf2b ModelSM4 ModelNtl SpecNtl Ntl1 Ntl2 Ntl3 NtlEx.
Import ListNotations.

(** C105: RandMat::init with is_mb takes the first invertible one of the matrices drawn row by row,
    where rows with exactly one 1 are passed over, and stores its two-sided inverse *)
Lemma C105_init_main : forall fuel nt n s, ntl_ok nt ->
  exists o, RandMat_init fuel nt n true s = Ok o /\
    forall A B s', o = Some (A, B, s') -> exists l B', A = mkgmat n n l /\ B = Some B' /\
      inv_from (trand nt) n s s' l /\ length l = n /\ (forall r, In r l -> length r = n /\ ones r <> 1) /\
      gok n n B' /\ inverse_of n (gat A) (gat B').
Proof.
  intros fuel nt n s HN. destruct (wp_exists _ _ _ (init_exact nt HN fuel n s)) as (o & E & H). exists o. split; [exact E|].
  intros A B s' ->. destruct H as (l & B' & -> & -> & Hl & _ & HB & HI). exists l, B'. split; [reflexivity|]. split; [reflexivity|].
  split; [exact Hl|]. split; [apply (inv_from_length _ _ _ _ _ Hl)|]. split; [apply (inv_from_rows _ _ _ _ _ Hl)|]. auto.
Qed.
(** ... and it does end if there is one *)
Lemma C105_ends_main : forall nt n s s' l, ntl_ok nt -> inv_from (trand nt) n s s' l ->
  exists f0 B, forall f, f0 <= f -> RandMat_init f nt n true s = Ok (Some (mkgmat n n l, Some B, s')).
Proof. intros nt n s s' l HN. apply (init_complete nt HN). Qed.
(** without is_mb it is the first matrix, invertible or not, and no inverse is stored *)
Lemma C105_any_main : forall fuel nt n s,
  exists o, RandMat_init fuel nt n false s = Ok o /\
    forall A B s', o = Some (A, B, s') -> B = None /\ exists l, A = mkgmat n n l /\ rows_from (trand nt) n n s s' l.
Proof.
  intros fuel nt n s. destruct (wp_exists _ _ _ (init_nomb nt fuel n s)) as (o & E & H). exists o. split; [exact E|].
  intros A B s' ->. exact H.
Qed.
(** InvTMat and random_GF2 in a loop draw in the same way *)
Lemma C105_InvTMat_main : forall fuel nt n s, ntl_ok nt ->
  exists o, InvTMat fuel nt n s = Ok o /\
    forall A s', o = Some (A, s') -> exists l, A = mkgmat n n l /\ inv_from (trand nt) n s s' l.
Proof.
  intros fuel nt n s HN. destruct (wp_exists _ _ _ (invt_exact nt HN fuel n s)) as (o & E & H). exists o. split; [exact E|].
  intros A s' ->. exact H.
Qed.
Lemma C105_genInv_main : forall fuel nt n s, ntl_ok nt ->
  exists o, genRandomInvMatrix fuel nt n s = Ok o /\
    forall X Y s', o = Some (X, Y, s') -> exists l, X = mkgmat n n l /\ inv_from (trand nt) n s s' l /\
      gok n n Y /\ inverse_of n (gat X) (gat Y).
Proof.
  intros fuel nt n s HN. destruct (wp_exists _ _ _ (geninv_exact nt HN fuel n s)) as (o & E & H). exists o. split; [exact E|].
  intros X Y s' ->. exact H.
Qed.
(** Not every dimension works: with 1 or 2 columns the search never ends, whatever the random bits are *)
Lemma C105_small_refuted_main : forall n, n = 1 \/ n = 2 -> forall fuel nt s, ntl_ok nt ->
  RandMat_init fuel nt n true s = Ok None /\ genRandomInvMatrix fuel nt n s = Ok None /\ InvTMat fuel nt n s = Ok None.
Proof.
  intros n Hn fuel nt s HN.
  assert (HF : forall s' l, ~ inv_from (trand nt) n s s' l).
  { intros s' l H. assert (D : n <> 1 /\ n <> 2) by (apply found_dims; eauto). lia. }
  split; [apply (init_small nt HN); exact Hn|]. split.
  - destruct (C105_genInv_main fuel nt n s HN) as ([[[X Y] s']|] & E & H); [|exact E].
    destruct (H X Y s' eq_refl) as (l & _ & Hl & _). destruct (HF s' l Hl).
  - destruct (C105_InvTMat_main fuel nt n s HN) as ([[A s']|] & E & H); [|exact E].
    destruct (H A s' eq_refl) as (l & _ & Hl). destruct (HF s' l Hl).
Qed.
(** ... and these are the only ones: in every other dimension some random bits make it end *)
Lemma C105_dimensions_main : forall n, n <> 1 -> n <> 2 -> exists rnd, forall nt, ntl_ok nt -> trand nt = rnd ->
  exists s f0 A B s', forall f, f0 <= f -> RandMat_init f nt n true s = Ok (Some (A, Some B, s')).
Proof.
  intros n H1 H2. destruct (proj2 (found_dims n) (conj H1 H2)) as (rnd & s & s' & l & Hl). exists rnd. intros nt HN E. subst rnd.
  destruct (init_complete nt HN n s s' l Hl) as (f0 & B & F). exists s, f0, (mkgmat n n l), B, s'. exact F.
Qed.
(** the matrix of dimension 3 drawn after a row with exactly one 1 was passed over *)
Definition bits3 (s : nat) : bool := nth s (map (Nat.eqb 1) [0; 1; 0; 1; 1; 0; 0; 1; 1; 1; 1; 1]) false.
Example C105_ex_main : ntl_ok (ex_ntl bits3 UL64) /\
  inv_from bits3 3 0 12 [[true; true; false]; [false; true; true]; [true; true; true]] /\
  RandMat_init 4 (ex_ntl bits3 UL64) 3 true 0 =
    Ok (Some (mkgmat 3 3 [[true; true; false]; [false; true; true]; [true; true; true]],
              Some (mkgmat 3 3 [[false; true; true]; [true; true; true]; [true; false; true]]), 12)).
Proof.
  split; [apply ex_ntl_ok|]. split; [|vm_compute; reflexivity]. apply inv_take.
  - apply rows_skip; [reflexivity|]. apply (rows_take bits3 3 2 3); [discriminate|]. apply (rows_take bits3 3 1 6); [discriminate|].
    apply (rows_take bits3 3 0 9); [discriminate|]. constructor.
  - exists (gat (mkgmat 3 3 [[false; true; true]; [true; true; true]; [true; false; true]])). apply inv_check_ok. vm_compute. reflexivity.
Qed.

(** C106: a random affine map comes with its inverse map, and is the first invertible matrix drawn with
    the next n random bits as the vector *)
Lemma C106_affine_main : forall fuel nt n s, ntl_ok nt ->
  exists o, genRandomAffineMatrix5 fuel nt n s = Ok o /\
    forall X Y V W s', o = Some (X, Y, V, W, s') ->
      (exists l s1, inv_from (trand nt) n s s1 l /\ X = mkgmat n n l /\ V = block (trand nt) n s1 /\ s' = s1 + n) /\
      gok n n Y /\ length W = n /\
      forall x, (x < 2 ^ N.of_nat n)%N ->
        affine_g n (mkgaff Y W) (affine_g n (mkgaff X V) x) = x /\ affine_g n (mkgaff X V) (affine_g n (mkgaff Y W) x) = x.
Proof.
  intros fuel nt n s HN. destruct (wp_exists _ _ _ (gen5_sound nt HN fuel n s)) as (o & E & H). exists o. split; [exact E|].
  intros X Y V W s' ->. destruct H as ((_ & [H1 H2] & _ & H3 & H4) & H5). split; [exact H5|]. split; [exact H1|]. split; [exact H2|].
  intros x Hx. split; [apply H3|apply H4]; exact Hx.
Qed.
(** The augmented matrix of an affine map (L, t) is ((L, t), (0, 1)): it takes (v, 1) to (L v + t, 1);
    it comes with its inverse *)
Lemma C106_augmented_main : forall fuel nt n s, ntl_ok nt ->
  exists o, genRandomAffineAugmentedMatrix fuel nt n s = Ok o /\
    forall X Y s', o = Some (X, Y, s') -> exists l s1, inv_from (trand nt) n s s1 l /\ s' = s1 + n /\
      gok (n + 1) (n + 1) X /\ gok (n + 1) (n + 1) Y /\ inverse_of (n + 1) (gat X) (gat Y) /\
      (forall i, i < n -> gat X n i = false) /\ gat X n n = true /\
      forall x, x n = true -> (forall i, i < n ->
        fapp (n + 1) (gat X) x i = xorb (fapp n (gat (mkgmat n n l)) x i) (nth i (block (trand nt) n s1) false)) /\
        fapp (n + 1) (gat X) x n = true.
Proof.
  intros fuel nt n s HN. destruct (wp_exists _ _ _ (aug_exact nt HN fuel n s)) as (o & E & H). exists o. split; [exact E|].
  intros X Y s' ->. destruct H as (l & s1 & Hl & -> & HX & HY & HE & HI). exists l, s1. split; [exact Hl|]. split; [reflexivity|].
  split; [exact HX|]. split; [exact HY|]. split; [exact HI|]. replace (n + 1) with (S n) in * by lia.
  split; [|split].
  - intros i Hi. rewrite (HE n i) by lia. unfold aug. destruct (Nat.ltb_spec n n); [lia|]. apply Nat.eqb_neq. lia.
  - rewrite (HE n n) by lia. unfold aug. destruct (Nat.ltb_spec n n); [lia|]. apply Nat.eqb_refl.
  - intros x Hx. split.
    + intros i Hi. rewrite (fapp_proper (S n) _ _ HE x x (reflexivity _) i) by lia. rewrite aug_app by lia.
      destruct (Nat.ltb_spec i n); [|lia]. rewrite Hx, andb_true_r. reflexivity.
    + rewrite (fapp_proper (S n) _ _ HE x x (reflexivity _) n) by lia. rewrite aug_app by lia.
      destruct (Nat.ltb_spec n n); [lia|]. exact Hx.
Qed.
(** both end on random bits that contain invertible matrices *)
Definition is_some {A : Type} (o : res (option A)) : bool := match o with Ok (Some _) => true | _ => false end.
Example C106_ex_main : ntl_ok (ex_ntl bits3 UL64) /\ is_some (genRandomAffineMatrix5 4 (ex_ntl bits3 UL64) 3 0) = true /\
  is_some (genRandomAffineAugmentedMatrix 4 (ex_ntl bits3 UL64) 3 0) = true.
Proof. split; [apply ex_ntl_ok|]. split; vm_compute; reflexivity. Qed.

(** C107: the functions on numbers; the first bit of a vector is the most significant one, and the
    results do not depend on the size of long *)
Lemma C107_vectors_main : forall x, getVecFrom32 x = Ok (vbits 32 x) /\ getAugmentedVecFrom32 x = Ok (vbits 32 x ++ [true]) /\
  (forall u n, (x < 2 ^ 32)%N -> n <= 32 -> initVecFromBit (to_long u x) n = Ok (vbits n x)) /\
  (forall n, n <= 32 -> (x < 2 ^ N.of_nat n)%N -> getDigitalFromVec (vbits n x) = Ok x).
Proof.
  intros x. split; [apply getVec_eq|]. split; [apply getAug_eq|]. split; [intros; apply vec_long; assumption|].
  intros n Hn Hx. rewrite (getDigital_eq n) by (auto using vbits_length). f_equal. apply (bits_ext n); [apply num_lt|exact Hx|].
  rewrite bits_num. apply vbits_gv.
Qed.
Lemma C107_numbers_main : forall v,
  (length v <= 32 -> getDigitalFromVec v = Ok (num (length v) (gv v))) /\
  (32 <= length v -> get32FromVec v = Ok (num 32 (gv v))) /\
  (length v < 32 -> get32FromVec v = UB) /\
  (8 <= length v -> get8FromVec v = Ok (num 8 (gv v))).
Proof.
  intros v. split; [intros H; apply getDigital_eq; auto|]. split; [apply get32_eq|]. split; [apply short32|apply get8_eq].
Qed.
Lemma C107_apply_main : forall nt,
  (forall f x, gok 32 32 (glin f) -> length (gtra f) = 32 -> (x < 2 ^ 32)%N -> applyAffineToU32 nt f x = Ok (affine_g 32 f x)) /\
  (forall f x, gok 8 8 (glin f) -> length (gtra f) = 8 -> (x < 256)%N -> applyAffineToU8 f x = Ok (affine_g 8 f x)) /\
  (forall M x, gok 32 32 M -> (x < 2 ^ 32)%N -> applyMatToU32 nt M x = Ok (num 32 (fapp 32 (gat M) (bits 32 x)))) /\
  (forall M x, gok 8 8 M -> (x < 256)%N -> applyMatToU8 M x = Ok (num 8 (fapp 8 (gat M) (bits 8 x)))) /\
  (forall v x, length v = 32 -> (x < 2 ^ 32)%N -> addVecToU32 nt v x = Ok (N.lxor (num 32 (gv v)) x)) /\
  (forall v x, length v = 8 -> (x < 256)%N -> addVecToU8 v x = Ok (N.lxor (num 8 (gv v)) x)).
Proof.
  intros nt. split; [intros; apply apply32_eq; [split|]; assumption|]. split; [intros; apply apply8_eq; split; assumption|].
  split; [intros; apply applyMat32_eq; assumption|]. split; [intros; apply applyMat8_eq; assumption|].
  split; [intros; apply addVec32_eq; assumption|intros; apply addVec8_eq; assumption].
Qed.
Lemma C107_diagonal_main : forall n m A B, gok n n A -> gok m m B ->
  exists D, combineDiagMat A B = Ok D /\ gok (n + m) (n + m) D /\ feq (n + m) (gat D) (block_diag n (gat A) (gat B)).
Proof.
  intros n m A B HA HB. apply wp_exists. apply (gwp_diag n n m m); auto.
Qed.
Lemma C107_constants_main : forall n,
  (exists M, genIndMatrix n = Ok M /\ gok n n M /\ feq n (gat M) fid) /\ genZeroVec n = Ok (repeat false n).
Proof.
  intros n. split; [|apply genZeroVec_eq]. apply wp_exists. apply gwp_ind. auto.
Qed.
(** a map on bytes and a number above 2^31 with both sizes of long *)
Example C107_ex_main : applyMatToU8 inv8 5 = Ok 221%N /\ gok 8 8 inv8 /\
  addVecToU32 (ex_ntl bits3 UL32) (vbits 32 1) 4000000000 = Ok 4000000001%N /\
  addVecToU32 (ex_ntl bits3 UL64) (vbits 32 1) 4000000000 = Ok 4000000001%N /\
  get32FromVec (vbits 31 1) = UB.
Proof.
  split; [vm_compute; reflexivity|]. split; [|split; [|split]; vm_compute; reflexivity].
  repeat split. intros r Hr. repeat (destruct Hr as [<-|Hr]; [reflexivity|]). destruct Hr.
Qed.
