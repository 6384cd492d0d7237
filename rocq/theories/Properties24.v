(** Generated by tools/gen_props.py from Main24.v: statements of the properties.
    Every theorem is closed by [exact]; its assumptions are printed beneath it. *)
From Coq Require Import Arith NArith ZArith List Bool Lia Setoid Morphisms.
From Verif Require Import Base Spec LinAlg SpecGf2 Gf2a Gf2b ModelSM4 ModelNtl SpecNtl Ntl1 Ntl2 Ntl3 NtlEx Main24.
Import ListNotations.

(** C105: RandMat::init with is_mb takes the first invertible one of the matrices drawn row by row,
    where rows with exactly one 1 are passed over, and stores its two-sided inverse *)
Theorem C105_init : forall fuel nt n s, ntl_ok nt ->
  exists o, RandMat_init fuel nt n true s = Ok o /\
    forall A B s', o = Some (A, B, s') -> exists l B', A = mkgmat n n l /\ B = Some B' /\
      inv_from (trand nt) n s s' l /\ length l = n /\ (forall r, In r l -> length r = n /\ ones r <> 1) /\
      gok n n B' /\ inverse_of n (gat A) (gat B').
Proof. exact C105_init_main. Qed.
Print Assumptions C105_init.

(** ... and it does end if there is one *)
Theorem C105_ends : forall nt n s s' l, ntl_ok nt -> inv_from (trand nt) n s s' l ->
  exists f0 B, forall f, f0 <= f -> RandMat_init f nt n true s = Ok (Some (mkgmat n n l, Some B, s')).
Proof. exact C105_ends_main. Qed.
Print Assumptions C105_ends.

(** without is_mb it is the first matrix, invertible or not, and no inverse is stored *)
Theorem C105_any : forall fuel nt n s,
  exists o, RandMat_init fuel nt n false s = Ok o /\
    forall A B s', o = Some (A, B, s') -> B = None /\ exists l, A = mkgmat n n l /\ rows_from (trand nt) n n s s' l.
Proof. exact C105_any_main. Qed.
Print Assumptions C105_any.

(** InvTMat and random_GF2 in a loop draw in the same way *)
Theorem C105_InvTMat : forall fuel nt n s, ntl_ok nt ->
  exists o, InvTMat fuel nt n s = Ok o /\
    forall A s', o = Some (A, s') -> exists l, A = mkgmat n n l /\ inv_from (trand nt) n s s' l.
Proof. exact C105_InvTMat_main. Qed.
Print Assumptions C105_InvTMat.

Theorem C105_genInv : forall fuel nt n s, ntl_ok nt ->
  exists o, genRandomInvMatrix fuel nt n s = Ok o /\
    forall X Y s', o = Some (X, Y, s') -> exists l, X = mkgmat n n l /\ inv_from (trand nt) n s s' l /\
      gok n n Y /\ inverse_of n (gat X) (gat Y).
Proof. exact C105_genInv_main. Qed.
Print Assumptions C105_genInv.

(** Not every dimension works: with 1 or 2 columns the search never ends, whatever the random bits are *)
Theorem C105_small_refuted : forall n, n = 1 \/ n = 2 -> forall fuel nt s, ntl_ok nt ->
  RandMat_init fuel nt n true s = Ok None /\ genRandomInvMatrix fuel nt n s = Ok None /\ InvTMat fuel nt n s = Ok None.
Proof. exact C105_small_refuted_main. Qed.
Print Assumptions C105_small_refuted.

(** ... and these are the only ones: in every other dimension some random bits make it end *)
Theorem C105_dimensions : forall n, n <> 1 -> n <> 2 -> exists rnd, forall nt, ntl_ok nt -> trand nt = rnd ->
  exists s f0 A B s', forall f, f0 <= f -> RandMat_init f nt n true s = Ok (Some (A, Some B, s')).
Proof. exact C105_dimensions_main. Qed.
Print Assumptions C105_dimensions.

Example C105_ex : ntl_ok (ex_ntl bits3 UL64) /\
  inv_from bits3 3 0 12 [[true; true; false]; [false; true; true]; [true; true; true]] /\
  RandMat_init 4 (ex_ntl bits3 UL64) 3 true 0 =
    Ok (Some (mkgmat 3 3 [[true; true; false]; [false; true; true]; [true; true; true]],
              Some (mkgmat 3 3 [[false; true; true]; [true; true; true]; [true; false; true]]), 12)).
Proof. exact C105_ex_main. Qed.

(** C106: a random affine map comes with its inverse map, and is the first invertible matrix drawn with
    the next n random bits as the vector *)
Theorem C106_affine : forall fuel nt n s, ntl_ok nt ->
  exists o, genRandomAffineMatrix5 fuel nt n s = Ok o /\
    forall X Y V W s', o = Some (X, Y, V, W, s') ->
      (exists l s1, inv_from (trand nt) n s s1 l /\ X = mkgmat n n l /\ V = block (trand nt) n s1 /\ s' = s1 + n) /\
      gok n n Y /\ length W = n /\
      forall x, (x < 2 ^ N.of_nat n)%N ->
        affine_g n (mkgaff Y W) (affine_g n (mkgaff X V) x) = x /\ affine_g n (mkgaff X V) (affine_g n (mkgaff Y W) x) = x.
Proof. exact C106_affine_main. Qed.
Print Assumptions C106_affine.

(** The augmented matrix of an affine map (L, t) is ((L, t), (0, 1)): it takes (v, 1) to (L v + t, 1);
    it comes with its inverse *)
Theorem C106_augmented : forall fuel nt n s, ntl_ok nt ->
  exists o, genRandomAffineAugmentedMatrix fuel nt n s = Ok o /\
    forall X Y s', o = Some (X, Y, s') -> exists l s1, inv_from (trand nt) n s s1 l /\ s' = s1 + n /\
      gok (n + 1) (n + 1) X /\ gok (n + 1) (n + 1) Y /\ inverse_of (n + 1) (gat X) (gat Y) /\
      (forall i, i < n -> gat X n i = false) /\ gat X n n = true /\
      forall x, x n = true -> (forall i, i < n ->
        fapp (n + 1) (gat X) x i = xorb (fapp n (gat (mkgmat n n l)) x i) (nth i (block (trand nt) n s1) false)) /\
        fapp (n + 1) (gat X) x n = true.
Proof. exact C106_augmented_main. Qed.
Print Assumptions C106_augmented.

Example C106_ex : ntl_ok (ex_ntl bits3 UL64) /\ is_some (genRandomAffineMatrix5 4 (ex_ntl bits3 UL64) 3 0) = true /\
  is_some (genRandomAffineAugmentedMatrix 4 (ex_ntl bits3 UL64) 3 0) = true.
Proof. exact C106_ex_main. Qed.

(** C107: the functions on numbers; the first bit of a vector is the most significant one, and the
    results do not depend on the size of long *)
Theorem C107_vectors : forall x, getVecFrom32 x = Ok (vbits 32 x) /\ getAugmentedVecFrom32 x = Ok (vbits 32 x ++ [true]) /\
  (forall u n, (x < 2 ^ 32)%N -> n <= 32 -> initVecFromBit (to_long u x) n = Ok (vbits n x)) /\
  (forall n, n <= 32 -> (x < 2 ^ N.of_nat n)%N -> getDigitalFromVec (vbits n x) = Ok x).
Proof. exact C107_vectors_main. Qed.
Print Assumptions C107_vectors.

Theorem C107_numbers : forall v,
  (length v <= 32 -> getDigitalFromVec v = Ok (num (length v) (gv v))) /\
  (32 <= length v -> get32FromVec v = Ok (num 32 (gv v))) /\
  (length v < 32 -> get32FromVec v = UB) /\
  (8 <= length v -> get8FromVec v = Ok (num 8 (gv v))).
Proof. exact C107_numbers_main. Qed.
Print Assumptions C107_numbers.

Theorem C107_apply : forall nt,
  (forall f x, gok 32 32 (glin f) -> length (gtra f) = 32 -> (x < 2 ^ 32)%N -> applyAffineToU32 nt f x = Ok (affine_g 32 f x)) /\
  (forall f x, gok 8 8 (glin f) -> length (gtra f) = 8 -> (x < 256)%N -> applyAffineToU8 f x = Ok (affine_g 8 f x)) /\
  (forall M x, gok 32 32 M -> (x < 2 ^ 32)%N -> applyMatToU32 nt M x = Ok (num 32 (fapp 32 (gat M) (bits 32 x)))) /\
  (forall M x, gok 8 8 M -> (x < 256)%N -> applyMatToU8 M x = Ok (num 8 (fapp 8 (gat M) (bits 8 x)))) /\
  (forall v x, length v = 32 -> (x < 2 ^ 32)%N -> addVecToU32 nt v x = Ok (N.lxor (num 32 (gv v)) x)) /\
  (forall v x, length v = 8 -> (x < 256)%N -> addVecToU8 v x = Ok (N.lxor (num 8 (gv v)) x)).
Proof. exact C107_apply_main. Qed.
Print Assumptions C107_apply.

Theorem C107_diagonal : forall n m A B, gok n n A -> gok m m B ->
  exists D, combineDiagMat A B = Ok D /\ gok (n + m) (n + m) D /\ feq (n + m) (gat D) (block_diag n (gat A) (gat B)).
Proof. exact C107_diagonal_main. Qed.
Print Assumptions C107_diagonal.

Theorem C107_constants : forall n,
  (exists M, genIndMatrix n = Ok M /\ gok n n M /\ feq n (gat M) fid) /\ genZeroVec n = Ok (repeat false n).
Proof. exact C107_constants_main. Qed.
Print Assumptions C107_constants.

(** a map on bytes and a number above 2^31 with both sizes of long *)
Example C107_ex : applyMatToU8 inv8 5 = Ok 221%N /\ gok 8 8 inv8 /\
  addVecToU32 (ex_ntl bits3 UL32) (vbits 32 1) 4000000000 = Ok 4000000001%N /\
  addVecToU32 (ex_ntl bits3 UL64) (vbits 32 1) 4000000000 = Ok 4000000001%N /\
  get32FromVec (vbits 31 1) = UB.
Proof. exact C107_ex_main. Qed.
