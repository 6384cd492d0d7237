(** C92 to C98: the matrix and affine layer over M4RI: numbers and vectors, matrices from arrays,
    products with numbers, block diagonal matrices, random invertible matrices and affine maps,
    export and import, destinations. *)
From Coq Require Import Arith NArith ZArith List Bool Lia.
From Verif Require Import Base Spec LinAlg ModelM4ri SpecM4ri M4ri1 M4ri2 M4ri8 ModelM4ri2 SpecM4ri2 M4ri14 M4ri17 M4ri18 M4ri19 M4ri20 ModelGf2 SpecGf2 Gf2a Gf2b Gf2c Gf2d.
Import ListNotations.

(** C92: a vector filled from a number holds its bits, the most significant one first, and the number
    read back from a vector of n rows is the number with these bits, modulo 2^32, 2^64 and 2^128.
    So a number of n bits written to a vector of n rows is read back. *)
Lemma C92_vector_main : forall e n x M, valid n 1 M -> n <= 32 ->
  exists V, InitVecFromBit e x M = Ok V /\ valid n 1 V /\ veq n (col0 V) (bits n x) /\
    getDigitalFromVec V = Ok (x mod 2 ^ N.of_nat n)%N.
Proof.
  intros e n x M HM Hn. apply okm_valid in HM.
  assert (W : wp (InitVecFromBit e x M) (fun V => okm n 1 V /\ veq n (col0 V) (bits n x))).
  { apply (wp_vec_u e n); auto. }
  destruct (wp_exists _ _ _ W) as (V & E & H1 & H2). exists V. split; [exact E|]. split; [apply okm_valid; exact H1|]. split; [exact H2|].
  destruct (wp_exists _ _ _ (wp_digits n 32 V H1)) as (d & Ed & ->). unfold getDigitalFromVec. change 32%N with (N.of_nat 32) at 1. rewrite Ed. apply f_equal.
  rewrite (num_ext n _ _ H2), num_bits. apply N.mod_small.
  eapply N.lt_le_trans; [apply N.mod_lt, N.pow_nonzero; discriminate|]. apply N.pow_le_mono_r; lia.
Qed.
Lemma C92_vector64_main : forall x, (x < 2 ^ 64)%N -> exists V, InitVecFromBit_64 x (mzd_init 64 1) = Ok V /\ veq 64 (col0 V) (bits 64 x) /\ get64FromVec V = Ok x.
Proof.
  intros x Hx.
  assert (W : wp (InitVecFromBit_64 x (mzd_init 64 1)) (fun V => okm 64 1 V /\ veq 64 (col0 V) (bits 64 x))).
  { unfold InitVecFromBit_64. rewrite N.mod_small by exact Hx. apply (wp_vec 64); [apply init_ok|]. auto. }
  destruct (wp_exists _ _ _ W) as (V & E & H1 & H2). exists V. split; [exact E|]. split; [exact H2|].
  unfold get64FromVec. rewrite (proj1 H1). change (negb (Nat.eqb 64 64)) with false. cbv iota. unfold getDigital64FromVec.
  destruct (wp_exists _ _ _ (wp_digits 64 64 V H1)) as (d & Ed & ->). change 64%N with (N.of_nat 64) at 1. rewrite Ed. apply f_equal.
  rewrite (num_ext 64 _ _ H2), num_bits. rewrite (N.mod_small x) by exact Hx. apply N.mod_small. exact Hx.
Qed.
Lemma C92_vector128_main : forall x, (x < 2 ^ 128)%N -> exists V, InitVecFromBit_128 x (mzd_init 128 1) = Ok V /\ veq 128 (col0 V) (bits 128 x) /\ get128FromVec V = Ok x.
Proof.
  intros x Hx.
  assert (W : wp (InitVecFromBit_128 x (mzd_init 128 1)) (fun V => okm 128 1 V /\ veq 128 (col0 V) (bits 128 x))).
  { unfold InitVecFromBit_128. rewrite N.mod_small by exact Hx. apply (wp_vec 128); [apply init_ok|]. auto. }
  destruct (wp_exists _ _ _ W) as (V & E & H1 & H2). exists V. split; [exact E|]. split; [exact H2|].
  unfold get128FromVec. rewrite (proj1 H1). change (negb (Nat.eqb 128 128)) with false. cbv iota. unfold getDigital128FromVec.
  destruct (wp_exists _ _ _ (wp_digits 128 128 V H1)) as (d & Ed & ->). change 128%N with (N.of_nat 128) at 1. rewrite Ed. apply f_equal.
  rewrite (num_ext 128 _ _ H2), num_bits. rewrite (N.mod_small x) by exact Hx. apply N.mod_small. exact Hx.
Qed.
(** C92: the number of any vector with one column; matrices of the wrong size give 0. *)
Lemma C92_digits_main : forall n M, valid n 1 M ->
  getDigitalFromVec M = Ok (num n (col0 M) mod 2 ^ 32)%N /\ (n <> 32 -> get32FromVec M = Ok 0%N) /\ (n <> 64 -> get64FromVec M = Ok 0%N).
Proof.
  intros n M HM. apply okm_valid in HM. split; [|split].
  - destruct (wp_exists _ _ _ (wp_digits n 32 M HM)) as (d & Ed & ->). exact Ed.
  - intros H. unfold get32FromVec. rewrite (proj1 HM). destruct (Nat.eqb_spec n 32); [contradiction|reflexivity].
  - intros H. unfold get64FromVec. rewrite (proj1 HM). destruct (Nat.eqb_spec n 64); [contradiction|reflexivity].
Qed.
(** 29 in a vector of 5 rows; the low 4 bits of 29 in a vector of 4 rows *)
Example C92_ex_main : valid 5 1 (mzd_init 5 1) /\
  InitVecFromBit fair_env 29 (mzd_init 5 1) = Ok (mkmzd 5 1 [[1]; [1]; [1]; [0]; [1]]%N) /\
  InitVecFromBit fair_env 29 (mzd_init 4 1) = Ok (mkmzd 4 1 [[1]; [1]; [0]; [1]]%N) /\
  getDigitalFromVec (mkmzd 4 1 [[1]; [1]; [0]; [1]]%N) = Ok 13%N.
Proof. split; [apply validb_ok; vm_compute; reflexivity|]. repeat split; vm_compute; reflexivity. Qed.

(** C93: a matrix filled from an array of numbers, one for each row, holds their bits, the most
    significant one in column 0. *)
Lemma C93_bit_array_main : forall R C data M, valid R C M -> R <= length data ->
  exists V, InitMatrixFromBitArray data M = Ok V /\ valid R C V /\
    forall i j, i < R -> j < C -> bitat V i j = bits C (nth i data 0%N) j.
Proof.
  intros R C data M HM HL. apply okm_valid in HM.
  destruct (wp_exists _ _ _ (wp_bit_array R C data M (fun V => okm R C V /\ forall i j, i < R -> j < C -> bitat V i j = bits C (nth i data 0%N) j)
    HM HL (fun V H1 H2 => conj H1 H2))) as (V & E & H1 & H2).
  exists V. split; [exact E|]. split; [apply okm_valid; exact H1|exact H2].
Qed.
(** C93: a square matrix filled from an array of non-negative values, row after row, holds them
    modulo 2. *)
Lemma C93_values_square_main : forall n data M, valid n n M -> n * n <= length data -> (forall x, In x data -> (0 <= x)%Z) ->
  exists V, InitMatGf2ByValueArray data M = Ok V /\ valid n n V /\
    forall i j, i < n -> j < n -> bitat V i j = Z.odd (nth (i * n + j) data 0%Z).
Proof.
  intros n data M HM HL HP. apply okm_valid in HM.
  assert (W : wp (InitMatGf2ByValueArray data M) (fun V => okm n n V /\ forall i j, i < n -> j < n -> bitat V i j = Z.odd (nth (i * n + j) data 0%Z))).
  { apply (wp_values n n); auto; [intros i j Hi Hj; nia|]. intros V H1 H2. split; [exact H1|]. intros i j Hi Hj. rewrite (Nat.mul_comm i n). auto. }
  destruct (wp_exists _ _ _ W) as (V & E & H1 & H2). exists V. split; [exact E|]. split; [apply okm_valid; exact H1|exact H2].
Qed.
(** C93: for other sizes the array is read with the number of rows as the distance of the rows: a
    2 x 3 matrix of 6 values gets the third value twice, and for a 3 x 2 matrix an element after
    the 6 values is read. *)
Lemma C93_values_refuted_main : exists data M, valid 2 3 M /\ length data = 2 * 3 /\ (forall x, In x data -> (0 <= x)%Z) /\
  exists V, InitMatGf2ByValueArray data M = Ok V /\ bitat V 1 0 <> Z.odd (nth (1 * 3 + 0) data 0%Z).
Proof.
  exists [0; 0; 1; 0; 0; 0]%Z, (mzd_init 2 3). split; [apply validb_ok; vm_compute; reflexivity|]. split; [reflexivity|].
  split; [intros x H; repeat (destruct H as [<-|H]; [lia|]); destruct H|].
  exists (mkmzd 2 3 [[4]; [1]]%N). split; [vm_compute; reflexivity|]. vm_compute. discriminate.
Qed.
Lemma C93_values_outside_refuted_main : exists data M, valid 3 2 M /\ length data = 3 * 2 /\ (forall x, In x data -> (0 <= x)%Z) /\
  InitMatGf2ByValueArray data M = UB.
Proof.
  exists [0; 0; 1; 0; 0; 0]%Z, (mzd_init 3 2). split; [apply validb_ok; vm_compute; reflexivity|]. split; [reflexivity|].
  split; [intros x H; repeat (destruct H as [<-|H]; [lia|]); destruct H|]. vm_compute. reflexivity.
Qed.
(** C93: negative odd values: -1 modulo 2 is 1, but MatGf2Set writes a 0, except in columns that are
    multiples of 64. *)
Lemma C93_negative_refuted_main : exists M V, valid 1 65 M /\ MatGf2Set M 0 1 (-1) = Ok V /\ bitat V 0 1 <> Z.odd (-1).
Proof.
  exists (mzd_init 1 65). destruct (MatGf2Set (mzd_init 1 65) 0 1 (-1)) as [V|] eqn:E; [|vm_compute in E; discriminate].
  exists V. split; [apply validb_ok; vm_compute; reflexivity|]. split; [reflexivity|].
  vm_compute in E. injection E as <-. vm_compute. discriminate.
Qed.
(** C93: the array [1; 2; 3; 4] of the comment in matrix_gf2.h does not give the matrix shown there;
    [1; 2; 5; 8] does. *)
Lemma C93_header_example_refuted_main :
  InitMatrixFromBitArray [1; 2; 3; 4]%N (mzd_init 4 4) <> InitMatrixFromBitArray [1; 2; 5; 8]%N (mzd_init 4 4) /\
  InitMatrixFromBitArray [1; 2; 5; 8]%N (mzd_init 4 4) = Ok (mkmzd 4 4 [[8]; [4]; [10]; [1]]%N).
Proof. split; vm_compute; [discriminate|reflexivity]. Qed.
Example C93_ex_main : valid 2 2 (mzd_init 2 2) /\ InitMatGf2ByValueArray [1; 2; 3; 4]%Z (mzd_init 2 2) = Ok (mkmzd 2 2 [[1]; [1]]%N).
Proof. split; [apply validb_ok; vm_compute; reflexivity|vm_compute; reflexivity]. Qed.
(** C93: the identity matrix and the zero vector. *)
Lemma C93_identity_main : forall n, (exists M, GenIndMatrix n = Ok M /\ valid n n M /\ feq n (bitat M) fid) /\
  exists V, GenZeroVec n = Ok V /\ valid n 1 V /\ veq n (col0 V) (fun _ => false).
Proof.
  intros n. split.
  - destruct (wp_exists _ _ _ (wp_ind n (fun M => okm n n M /\ feq n (bitat M) fid) (fun M H1 H2 => conj H1 H2))) as (M & E & H1 & H2).
    exists M. rewrite okm_valid. auto.
  - destruct (wp_exists _ _ _ (wp_zero n (fun M => okm n 1 M /\ veq n (col0 M) (fun _ => false)) (fun M H1 H2 => conj H1 H2))) as (M & E & H1 & H2).
    exists M. rewrite okm_valid. auto.
Qed.

(** C94: ApplyMatToU8/16/32/64/128 return the number of the product of the matrix and the vector of the
    bits of the argument, whatever the uninitialised stack arrays contain. *)
Lemma C94_apply_main : forall e n A x, env_ok e -> valid n n A -> n = 8 \/ n = 16 \/ n = 32 ->
  ApplyMatToU e n A x = Ok (num n (fapp n (bitat A) (bits n x))).
Proof. intros e n A x HE HA Hn. apply okm_valid in HA. apply wp_apply_mat; auto; lia. Qed.
Lemma C94_apply64_main : forall e A x, env_ok e -> valid 64 64 A -> ApplyMatToU64 e A x = Ok (num 64 (fapp 64 (bitat A) (bits 64 x))).
Proof. intros e A x HE HA. apply okm_valid in HA. apply wp_apply_mat64; assumption. Qed.
Lemma C94_apply128_main : forall e A x, env_ok e -> valid 128 128 A -> ApplyMatToU128 e A x = Ok (num 128 (fapp 128 (bitat A) (bits 128 x))).
Proof. intros e A x HE HA. apply okm_valid in HA. apply wp_apply_mat128; assumption. Qed.
(** C94: AddMatToU32/64/128 return the xor of the argument and the number in the vector, GenMatAddU8/16/32
    the vector of this xor. *)
Lemma C94_add_main : forall e V x, valid 32 1 V -> (x < 2 ^ 32)%N -> AddMatToU32 e V x = Ok (N.lxor (num 32 (col0 V)) x).
Proof. intros e V x HV Hx. apply okm_valid in HV. apply add_u32; assumption. Qed.
Lemma C94_add64_main : forall V x, valid 64 1 V -> (x < 2 ^ 64)%N -> AddMatToU64 V x = Ok (N.lxor (num 64 (col0 V)) x).
Proof. intros V x HV Hx. apply okm_valid in HV. apply add_u64; assumption. Qed.
Lemma C94_add128_main : forall V x, valid 128 1 V -> (x < 2 ^ 128)%N -> AddMatToU128 V x = Ok (N.lxor (num 128 (col0 V)) x).
Proof. intros V x HV Hx. apply okm_valid in HV. apply add_u128; assumption. Qed.
Lemma C94_gen_add_main : forall e n V x, valid n 1 V -> n <= 32 ->
  exists W, GenMatAddU e n V x = Ok W /\ valid n 1 W /\ veq n (col0 W) (vadd (col0 V) (bits n x)).
Proof.
  intros e n V x HV Hn. apply okm_valid in HV.
  destruct (wp_exists _ _ _ (wp_gen_add e n V x (fun W => okm n 1 W /\ veq n (col0 W) (vadd (col0 V) (bits n x))) HV Hn (fun W H1 H2 => conj H1 H2)))
    as (W & E & H1 & H2). exists W. rewrite okm_valid. auto.
Qed.
(** C94: affine maps on numbers and on vectors. *)
Lemma C94_affine_main : forall e n f x, env_ok e -> valid_aff n f -> n = 8 \/ n = 16 -> ApplyAffineToU e n f x = Ok (affine_n n f x).
Proof. intros e n f x HE HF Hn. apply okaff_valid in HF. apply apply_u; auto; lia. Qed.
Lemma C94_affine32_main : forall e f x, env_ok e -> valid_aff 32 f -> ApplyAffineToU32 e f x = Ok (affine_n 32 f x).
Proof. intros e f x HE HF. apply okaff_valid in HF. apply apply_u32; assumption. Qed.
Lemma C94_affine_vector_main : forall e n f V, env_ok e -> valid_aff n f -> valid n 1 V -> 1 <= n -> n <= 4096 ->
  exists W, ApplyAffineTransform e f V = Ok W /\ valid n 1 W /\
    veq n (col0 W) (affine_f n (bitat (alin f)) (col0 (atrans f)) (col0 V)).
Proof.
  intros e n f V HE HF HV H1 H2. apply okaff_valid in HF. apply okm_valid in HV.
  destruct (wp_exists _ _ _ (wp_apply_vec n e f V (fun W => okm n 1 W /\ veq n (col0 W) (affine_f n (bitat (alin f)) (col0 (atrans f)) (col0 V)))
    HE HF HV H1 (vsmall_le n H2) (fun W K1 K2 => conj K1 K2))) as (W & E & K1 & K2). exists W. rewrite okm_valid. auto.
Qed.
(** The matrix of 8 rows with ones in columns 0 and i; the vector 10000001 *)
Example C94_ex_main : env_ok fair_env /\
  let f := mkafft (mkmzd 8 8 [[1]; [3]; [5]; [9]; [17]; [33]; [65]; [129]]%N) (mkmzd 8 1 [[1]; [0]; [0]; [0]; [0]; [0]; [0]; [1]]%N) in
  valid_aff 8 f /\ ApplyMatToU fair_env 8 (alin f) 0xA1 = Ok 0xDE%N /\ ApplyAffineToU fair_env 8 f 0xA1 = Ok 0x5F%N.
Proof.
  split; [apply fair_env_ok|]. cbv zeta. split; [split; apply validb_ok; vm_compute; reflexivity|]. split; vm_compute; reflexivity.
Qed.

(** C95: MatGf2Diag and GenMatGf2Diag return the block diagonal matrix of two square matrices; also
    of matrices with more rows than columns, of which the rows after the square are left out. *)
Lemma C95_diag_main : forall ra n rb m a b, valid ra n a -> valid rb m b -> n <= ra -> m <= rb ->
  exists D, MatGf2Diag a b = Ok D /\ valid (n + m) (n + m) D /\ feq (n + m) (bitat D) (block_diag n (bitat a) (bitat b)).
Proof.
  intros ra n rb m a b Ha Hb Hn Hm. apply okm_valid in Ha, Hb.
  destruct (wp_exists _ _ _ (wp_diag ra n rb m a b (fun D => okm (n + m) (n + m) D /\ feq (n + m) (bitat D) (block_diag n (bitat a) (bitat b)))
    Ha Hb Hn Hm (fun D H1 H2 => conj H1 H2))) as (D & E & H1 & H2). exists D. rewrite okm_valid. auto.
Qed.
(** C95: with fewer rows than columns rows outside of the matrix are read. *)
Lemma C95_wide_refuted_main : exists a b, valid 1 2 a /\ valid 1 1 b /\ MatGf2Diag a b = UB.
Proof.
  exists (mzd_init 1 2), (mzd_init 1 1). split; [apply validb_ok; vm_compute; reflexivity|]. split; [apply validb_ok; vm_compute; reflexivity|].
  vm_compute. reflexivity.
Qed.
Example C95_ex_main : valid 2 2 (mkmzd 2 2 [[3]; [2]]%N) /\ valid 1 1 (mkmzd 1 1 [[1]]%N) /\
  MatGf2Diag (mkmzd 2 2 [[3]; [2]]%N) (mkmzd 1 1 [[1]]%N) = Ok (mkmzd 3 3 [[3]; [2]; [4]]%N).
Proof. split; [apply validb_ok; vm_compute; reflexivity|]. split; [apply validb_ok; vm_compute; reflexivity|]. vm_compute. reflexivity. Qed.

(** C96: an exported matrix is the string of its sizes and entries, and importing it, at any position
    of a longer string, gives the same matrix. *)
Lemma C96_export_main : forall e R C A, valid R C A -> (8 + N.of_nat R * N.of_nat C < 2 ^ 31)%N ->
  ExportMatGf2ToStr e A = Ok (str_of R C (bitat A)).
Proof. intros e R C A HA HS. apply okm_valid in HA. apply export_ok; assumption. Qed.
Lemma C96_import_main : forall e R C A s pre post, valid R C A -> (N.of_nat R < 2 ^ 31)%N -> (N.of_nat C < 2 ^ 31)%N ->
  ExportMatGf2ToStr e A = Ok s -> ImportMatGf2FromStr (pre ++ s ++ post) (length pre) = Ok A.
Proof.
  intros e R C A s pre post HA HR HC HE. apply okm_valid in HA.
  assert (HS : (8 + N.of_nat R * N.of_nat C < 2 ^ 31)%N).
  { unfold ExportMatGf2ToStr in HE. pose proof HA as (E1 & E2 & _). rewrite E1, E2 in HE.
    destruct (N.ltb_spec (8 + N.of_nat R * N.of_nat C) (2 ^ 31)); [assumption|discriminate]. }
  rewrite (export_ok e R C) in HE by assumption. injection HE as <-. apply import_eq; assumption.
Qed.
(** C96: affine maps. *)
Lemma C96_affine_main : forall e n f post, valid_aff n f -> (8 + N.of_nat n * N.of_nat n < 2 ^ 31)%N ->
  ExportAffineToStr e f = Ok (str_aff n f) /\ ImportAffineFromStr (str_aff n f ++ post) = Ok f.
Proof. intros e n f post HF HE. apply okaff_valid in HF. split; [apply export_aff_ok|apply import_aff_ok]; assumption. Qed.
Example C96_ex_main : valid 2 3 (mkmzd 2 3 [[5]; [6]]%N) /\
  ExportMatGf2ToStr fair_env (mkmzd 2 3 [[5]; [6]]%N) = Ok [2; 0; 0; 0; 3; 0; 0; 0; 49; 48; 49; 48; 49; 49]%N.
Proof. split; [apply validb_ok; vm_compute; reflexivity|vm_compute; reflexivity]. Qed.

(** C97: GenInvertibleMatGf2(n, n) returns the first invertible one of the matrices drawn from
    random(); it ends as soon as there is one. *)
Lemma C97_invertible_main : forall e n fuel s, 1 <= n ->
  exists o, GenInvertibleMatGf2 fuel e n n s = Ok o /\ match o with
    | Some (M, s') => valid n n M /\ exists t, t <= fuel /\ first_invertible n (erand e) s t /\
        feq n (bitat M) (drawn n (erand e) (draw_pos n s t)) /\ s' = draw_pos n s (t + 1)
    | None => forall t, t <= fuel -> ~ invertible n (drawn n (erand e) (draw_pos n s t))
    end.
Proof.
  intros e n fuel s Hn. destruct (wp_exists _ _ _ (wp_gen_invertible n e fuel s Hn)) as (o & E & H).
  exists o. split; [exact E|]. destruct o as [[M s']|]; [|exact H]. destruct H as (H1 & t & H2 & H3 & H4 & H5).
  split; [apply okm_valid; exact H1|]. exists t. auto.
Qed.
(** C97: with different numbers of rows and columns it never ends. *)
Lemma C97_not_square_main : forall e r c fuel s, r <> c -> 1 <= c -> GenInvertibleMatGf2 fuel e r c s = Ok None.
Proof.
  intros e r c fuel s Hne Hc. unfold GenInvertibleMatGf2, GenRandomMatGf2, RandomMatGf2.
  assert (W : wp (mzd_randomize e (mzd_init r c) s) (fun st => okm r c (fst st))).
  { apply (wp_randomize r c); [apply init_ok|lia|]. intros M HM _. exact HM. }
  destruct (wp_exists _ _ _ W) as ([A s'] & -> & HA). cbn [bind fst] in *. clear W.
  revert A s' HA. induction fuel as [|fuel IH]; intros A s' HA; cbn [random_until]; unfold IsMatGf2Invertible;
    rewrite (proj1 HA), (proj1 (proj2 HA)); (destruct (Nat.eqb_spec r c); [contradiction|]); cbn [negb bind]; [reflexivity|].
  assert (W : wp (RandomMatGf2 e A s') (fun st => okm r c (fst st))).
  { apply (wp_randomize r c); [exact HA|lia|]. intros M HM _. exact HM. }
  destruct (wp_exists _ _ _ W) as ([A' s2] & -> & HA'). cbn [bind fst] in *. apply IH. exact HA'.
Qed.
(** C97: GenRandomAffineTransform returns an affine map and its inverse: the matrix is the first
    invertible one drawn, the vector is drawn after it, and the two maps undo each other on every
    vector. *)
Lemma C97_affine_main : forall e n fuel s, env_ok e -> 1 <= n -> n <= 4096 ->
  exists o, GenRandomAffineTransform fuel e n s = Ok o /\ match o with
    | Some (f, g, s') => valid_aff n f /\ valid_aff n g /\ inverse_aff n f g /\
        exists t, t <= fuel /\ first_invertible n (erand e) s t /\
          feq n (bitat (alin f)) (drawn n (erand e) (draw_pos n s t)) /\
          (forall i, i < n -> col0 (atrans f) i = N.testbit (word_at (erand e) (draw_pos n s (t + 1) + 3 * i)) 0) /\
          s' = draw_pos n s (t + 1) + 3 * n
    | None => forall t, t <= fuel -> ~ invertible n (drawn n (erand e) (draw_pos n s t))
    end.
Proof.
  intros e n fuel s HE Hn H2. destruct (wp_exists _ _ _ (wp_gen_affine n e fuel s HE Hn (vsmall_le n H2))) as (o & E & H).
  exists o. split; [exact E|]. destruct o as [[[f g] s']|]; [|exact H]. rewrite !okaff_valid. exact H.
Qed.
(** C97: so the two maps on numbers of 8, 16 and 32 bits undo each other. *)
Lemma C97_numbers_main : forall n f g x, inverse_aff n f g -> (x < 2 ^ N.of_nat n)%N ->
  affine_n n g (affine_n n f x) = x /\ affine_n n f (affine_n n g x) = x.
Proof.
  intros n f g x H Hx.
  assert (K : forall u v, (forall y, veq n (affine_f n (bitat (alin u)) (col0 (atrans u)) (affine_f n (bitat (alin v)) (col0 (atrans v)) y)) y) ->
    affine_n n u (affine_n n v x) = x).
  { intros u v Huv. unfold affine_n. rewrite <- (num_bits_id n x) at 2 by exact Hx. apply num_ext.
    intros i Hi. rewrite <- (Huv (bits n x) i Hi). apply affine_f_ext; [reflexivity|reflexivity|apply bits_num|exact Hi]. }
  split; apply K; intros y; apply H.
Qed.
(** C97: if from every position one of the next fuel + 1 matrices is invertible, it ends. *)
Lemma C97_ends_main : forall e n fuel s, env_ok e -> 1 <= n -> n <= 4096 -> s mod 3 = 0 -> fair fuel n (erand e) ->
  exists f g s', GenRandomAffineTransform fuel e n s = Ok (Some (f, g, s')) /\ s' mod 3 = 0.
Proof.
  intros e n fuel s HE Hn H2 H3 HF. destruct (wp_exists _ _ _ (fair_some n e fuel s HE Hn (vsmall_le n H2) H3 HF)) as (o & E & f & g & s' & -> & H).
  exists f, g, s'. auto.
Qed.
(** A sequence of random numbers that is fair for dimensions 8 and 32, and the map drawn from it *)
Example C97_ex_main : env_ok fair_env /\ fair 0 8 (erand fair_env) /\ fair 0 32 (erand fair_env) /\
  match GenRandomAffineTransform 0 fair_env 8 3 with
  | Ok (Some (f, g, s')) => s' = 51 /\ map (fun r => hd 0%N r) (mrows (alin f)) = [2; 4; 8; 16; 32; 64; 128; 1]%N /\
      map (fun r => hd 0%N r) (mrows (alin g)) = [128; 1; 2; 4; 8; 16; 32; 64]%N
  | _ => False
  end.
Proof. split; [apply fair_env_ok|]. split; [exact fair8|]. split; [exact fair32|]. vm_compute. repeat split; reflexivity. Qed.

(** C98: the destination of MatGf2Mul, MatGf2Add, MatGf2Inv, MatGf2Transpose, MatGf2Stack and
    MatGf2Concat may be NULL, an operand or another matrix: the result is the same, only the old
    destination is freed. *)
Lemma C98_mul_main : forall e h a b dst R n C A B, env_ok e -> deref h a = Ok A -> deref h b = Ok B -> usable h dst ->
  valid R n A -> valid n C B -> 1 <= n -> 1 <= C -> small n C -> small C n ->
  exists h' p M, MatGf2Mul_p e h a b dst = Ok (h', p) /\ replaced h dst h' p M /\ valid R C M /\
    is_product R n C (bitat A) (bitat B) (bitat M).
Proof.
  intros e h a b dst R n C A B HE Ha Hb HU HA HB Hn HC S1 S2. apply okm_valid in HA, HB.
  destruct (wp_exists _ _ _ (wp_gmul R n C e A B (fun M => okm R C M /\ is_product R n C (bitat A) (bitat B) (bitat M))
    HE HA HB Hn HC S1 S2 (fun M H1 H2 => conj H1 H2))) as (M & E & H1 & H2).
  destruct (store_ok h dst M HU) as (h' & p & K1 & K2). exists h', p, M. rewrite okm_valid. split; [|auto].
  unfold MatGf2Mul_p. rewrite Ha, Hb. cbn [bind]. rewrite E. exact K1.
Qed.
Lemma C98_add_main : forall h a b dst R C A B, deref h a = Ok A -> deref h b = Ok B -> usable h dst -> valid R C A -> valid R C B ->
  exists h' p M, MatGf2Add_p h a b dst = Ok (h', p) /\ replaced h dst h' p M /\ valid R C M /\
    forall i j, i < R -> j < C -> bitat M i j = xorb (bitat A i j) (bitat B i j).
Proof.
  intros h a b dst R C A B Ha Hb HU HA HB. apply okm_valid in HA, HB.
  assert (W : wp (mzd_add A B) (fun M => okm R C M /\ forall i j, i < R -> j < C -> bitat M i j = xorb (bitat A i j) (bitat B i j))).
  { apply (wp_add R C); auto. }
  destruct (wp_exists _ _ _ W) as (M & E & H1 & H2).
  destruct (store_ok h dst M HU) as (h' & p & K1 & K2). exists h', p, M. rewrite okm_valid. split; [|auto].
  unfold MatGf2Add_p, GenMatGf2Add. rewrite Ha, Hb. cbn [bind]. rewrite E. exact K1.
Qed.
Lemma C98_inv_main : forall h a dst n A, deref h a = Ok A -> usable h dst -> valid n n A -> 1 <= n -> invertible n (bitat A) ->
  exists h' p M, MatGf2Inv_p h a dst = Ok (h', p) /\ replaced h dst h' p M /\ valid n n M /\ inverse_of n (bitat A) (bitat M).
Proof.
  intros h a dst n A Ha HU HA Hn HI. apply okm_valid in HA.
  destruct (wp_exists _ _ _ (wp_inv_m4ri n A HA Hn)) as (M & E & H1 & _ & _ & H2).
  destruct (store_ok h dst M HU) as (h' & p & K1 & K2). exists h', p, M. rewrite okm_valid. split; [|auto].
  unfold MatGf2Inv_p, GenMatGf2Inv. rewrite Ha. cbn [bind]. rewrite E. exact K1.
Qed.
Lemma C98_other_main : forall e h a b dst A B, deref h a = Ok A -> deref h b = Ok B -> usable h dst ->
  (forall M, mzd_transpose (ejunk e) A = Ok M -> exists h' p, MatGf2Transpose_p e h a dst = Ok (h', p) /\ replaced h dst h' p M) /\
  (forall M, mzd_stack A B = Ok M -> exists h' p, MatGf2Stack_p h a b dst = Ok (h', p) /\ replaced h dst h' p M) /\
  (forall M, mzd_concat A B = Ok M -> exists h' p, MatGf2Concat_p h a b dst = Ok (h', p) /\ replaced h dst h' p M).
Proof.
  intros e h a b dst A B Ha Hb HU. unfold MatGf2Transpose_p, MatGf2Stack_p, MatGf2Concat_p. rewrite Ha, Hb. cbn [bind].
  split; [|split]; intros M ->; apply store_ok; exact HU.
Qed.
(** C98: MatGf2Diag and MatGf2Copy free the old destination first, so it must not be an operand. *)
Lemma C98_diag_main : forall h a b dst n m A B, deref h a = Ok A -> deref h b = Ok B -> usable h dst -> valid n n A -> valid m m B ->
  (dst <> a -> dst <> b -> exists h' p M, MatGf2Diag_p h a b dst = Ok (h', p) /\ replaced h dst h' p M /\
     feq (n + m) (bitat M) (block_diag n (bitat A) (bitat B))) /\
  (dst = a \/ dst = b -> MatGf2Diag_p h a b dst = UB).
Proof.
  intros h a b dst n m A B Ha Hb HU HA HB. destruct (C95_diag_main n n m m A B HA HB (le_n _) (le_n _)) as (M & E & _ & HM).
  destruct (realloc_ok h dst M HU) as (h1 & F & F1 & F2 & h2 & p & K1 & K2).
  unfold MatGf2Diag_p. rewrite Ha, Hb. cbn [bind]. rewrite F. cbn [bind]. split.
  - intros N1 N2. exists h2, p, M. rewrite !F1 by congruence. rewrite Ha, Hb. cbn [bind]. rewrite E. cbn [bind]. rewrite K1. auto.
  - intros [->| ->]; rewrite F2; [reflexivity|]. destruct (deref h1 a); reflexivity.
Qed.
Lemma C98_copy_main : forall h a dst R C A, deref h a = Ok A -> usable h dst -> valid R C A -> 1 <= C ->
  (dst <> a -> exists h' p M, MatGf2Copy_p h a dst = Ok (h', p) /\ replaced h dst h' p M /\ valid R C M /\
     forall i j, i < R -> j < C -> bitat M i j = bitat A i j) /\
  (dst = a -> MatGf2Copy_p h a dst = UB).
Proof.
  intros h a dst R C A Ha HU HA HC. apply okm_valid in HA.
  assert (W : wp (mzd_copy A) (fun M => okm R C M /\ forall i j, i < R -> j < C -> bitat M i j = bitat A i j)).
  { apply (wp_copy R C); auto. }
  destruct (wp_exists _ _ _ W) as (M & E & H1 & H2). destruct (realloc_ok h dst M HU) as (h1 & F & F1 & F2 & h2 & p & K1 & K2).
  unfold MatGf2Copy_p. rewrite F. cbn [bind]. split.
  - intros N1. exists h2, p, M. rewrite F1 by congruence. rewrite Ha. cbn [bind]. rewrite E. cbn [bind]. rewrite K1. rewrite okm_valid. auto.
  - intros ->. rewrite F2. reflexivity.
Qed.
(** A product stored in place of its left operand *)
Example C98_ex_main : let h := [Some (mkmzd 2 2 [[3]; [2]]%N); None; Some (mkmzd 2 2 [[1]; [3]]%N)] in
  deref h (Some 0) = Ok (mkmzd 2 2 [[3]; [2]]%N) /\ usable h (Some 0) /\ valid 2 2 (mkmzd 2 2 [[3]; [2]]%N) /\ small 2 2 /\
  MatGf2Mul_p fair_env h (Some 0) (Some 2) (Some 0) =
    Ok ([None; None; Some (mkmzd 2 2 [[1]; [3]]%N); Some (mkmzd 2 2 [[2]; [3]]%N)], Some 3) /\
  MatGf2Diag_p h (Some 0) (Some 2) (Some 0) = UB.
Proof.
  cbv zeta. split; [reflexivity|]. split; [right; eexists; reflexivity|]. split; [apply validb_ok; vm_compute; reflexivity|].
  split; [vm_compute; discriminate|]. split; vm_compute; reflexivity.
Qed.
