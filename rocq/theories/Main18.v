(** C81 to C85: the matrices of M4RI: Gray code tables, echelon forms, invertibility, inverse. *)
From Coq Require Import Arith NArith ZArith List Bool Permutation Lia ZifyNat.
From Verif Require Import Base Spec LinAlg Elim Gauss SpecRank Rank ModelM4ri SpecM4ri M4ri1 M4ri2 M4ri3 M4ri4 M4ri5 M4ri6 M4ri7 M4ri8.
Import ListNotations.
#[local] Ltac Zify.zify_post_hook ::= Z.to_euclidean_division_equations.

(** C81: the code book of l bits is a Gray code: the 2^l code words are all the numbers below 2^l,
    starting at 0, and two consecutive ones differ in the one bit named by inc. *)
Lemma C81_gray_codebook_main : forall l, 1 <= l -> l <= 16 ->
  exists ord inc, codebook l = Ok (ord, inc) /\ length inc = 2 ^ l /\ Permutation ord (seq 0 (2 ^ l)) /\ nth 0 ord 1 = 0 /\
    forall i, i + 1 < 2 ^ l -> nth i inc 0 < l /\
      N.lxor (N.of_nat (nth (i + 1) ord 0)) (N.of_nat (nth i ord 0)) = (2 ^ N.of_nat (nth i inc 0%nat))%N.
Proof.
  intros l H1 H2. assert (HP : 1 <= 2 ^ l) by (apply Nat.neq_0_lt_0, Nat.pow_nonzero; lia).
  destruct (wp_exists _ _ _ (wp_codebook l (fun '(ord, inc) => length ord = 2 ^ l /\ length inc = 2 ^ l /\
     (forall i, i < 2 ^ l -> nth i ord 0 = gord l i) /\
     (forall x, 1 <= x -> x < 2 ^ l -> let d := nth (x - 1) inc 0 in
        d < l /\ Nat.divide (2 ^ d) x /\ ~ Nat.divide (2 ^ S d) x)) H1 H2 (fun o i a b c d => conj a (conj b (conj c d)))))
    as ([ord inc] & E & L1 & L2 & E1 & E2).
  exists ord, inc. refine (conj E (conj L2 (conj _ (conj _ _)))).
  - apply NoDup_Permutation.
    + apply (NoDup_nth ord 0). intros i j Hi Hj. rewrite L1 in *. rewrite !E1 by auto. apply gord_inj; auto.
    + apply seq_NoDup.
    + intros x. rewrite in_seq. split.
      * intros Hx. destruct (In_nth _ _ 0 Hx) as (i & Hi & <-). rewrite E1 by lia. assert (X := gord_lt l i). lia.
      * intros [_ Hx]. destruct (gord_surj l x Hx) as (i & Hi & <-). rewrite <- E1 by auto. apply nth_In. lia.
  - rewrite (nth_indep _ _ 0) by lia. rewrite E1, gord_0 by lia. reflexivity.
  - intros i Hi. destruct (E2 (i + 1) ltac:(lia) Hi) as (D1 & D2 & D3). replace (i + 1 - 1) with i in * by lia.
    split; [exact D1|]. rewrite !E1 by lia. apply tb_inj. intros b.
    assert (G := gray_step l (i + 1) _ ltac:(lia) Hi D2 D3 b). replace (i + 1 - 1) with i in * by lia.
    rewrite tb_lxor, !tb_gord, G. unfold tb. rewrite N.pow2_bits_eqb.
    destruct (Nat.eqb_spec b (nth i inc 0)), (N.eqb_spec (N.of_nat (nth i inc 0)) (N.of_nat b)); auto; lia.
Qed.
(** The code book of 3 bits *)
Example C81_ex_main : codebook 3 = Ok ([0; 1; 3; 2; 6; 7; 5; 4], [0; 1; 0; 2; 0; 1; 0; 2]).
Proof. vm_compute. reflexivity. Qed.

(** C82: the table of 2^k combinations: with zero row 0, after mzd_make_table row L[id] of T is, from
    column c on, the sum of the rows r + l of M with bit l set in id, for every id below 2^k. *)
Lemma C82_make_table_main : forall R C M r c k T L, valid R C M -> c < C -> 1 <= k -> k <= 16 -> r + k <= R ->
  length T = 2 ^ k -> length L = 2 ^ k -> (forall row, In row T -> validrow C row) -> (forall j, rowbit (nth 0 T []) j = false) ->
  exists T' L', mzd_make_table M r c k (T, L) = Ok (T', L') /\ length T' = 2 ^ k /\ (forall row, In row T' -> validrow C row) /\
    forall id, id < 2 ^ k -> nth id L' 0 < 2 ^ k /\
      forall j, c <= j -> rowbit (nth (nth id L' 0) T' []) j = xsum k (fun l => N.testbit (N.of_nat id) (N.of_nat l) && bitat M (r + l) j).
Proof.
  intros R C M r c k T L HM Hc Hk1 Hk2 Hr HT HL HV H0. apply okm_valid in HM.
  assert (HO : tblok C k (T, L)).
  { refine (conj HT (conj HL (conj _ H0))). intros i Hi. apply wfr_valid, HV, nth_In. simpl. lia. }
  destruct (wp_exists _ _ _ (wp_make_table R C M r c k k (T, L) (fun TL' => tblok C k TL' /\ tblspec (fun l j => bitat M (r + l) j) c k TL')
    HM Hc Hk1 Hk2 (le_n k) Hr HO (fun _ a b => conj a b))) as ([T' L'] & E & O & S).
  exists T', L'. refine (conj E (conj (proj1 O) (conj _ _))).
  - intros row Hrow. destruct (In_nth _ _ [] Hrow) as (i & Hi & <-). apply wfr_valid. apply (proj1 (proj2 (proj2 O))). rewrite <- (proj1 O). exact Hi.
  - intros id Hid. destruct (tblspec_id C k _ c k (T', L') id O S (le_n k) Hid) as (x & X1 & X2 & X3 & X4 & X5 & X6).
    simpl in X1. rewrite X1. split; [exact X2|]. intros j Hj. cbn [fst] in X6. rewrite (X6 j (Nat.le_trans _ _ _ (Nat.mul_div_le c 64 ltac:(discriminate)) Hj)).
    destruct (Nat.leb_spec c j); [reflexivity|lia].
Qed.
(** Two rows of 65 columns, from column 1 *)
Example C82_ex_main : valid 2 65 (mkmzd 2 65 [[7; 1]; [4; 0]]%N) /\
  mzd_make_table (mkmzd 2 65 [[7; 1]; [4; 0]]%N) 0 1 2 (repeat [0; 0]%N 4, repeat 0 4)
  = Ok ([[0; 0]; [6; 1]; [2; 1]; [4; 0]]%N, [0; 1; 3; 2]).
Proof.
  split; [apply validb_ok|]; vm_compute; reflexivity.
Qed.

(** C83: mzd_echelonize_naive gives, for every matrix, a row equivalent one in echelon form (reduced
    if full), and returns the rank. *)
Lemma C83_echelonize_naive_main : forall R C M full, valid R C M ->
  exists M' r, mzd_echelonize_naive M full = Ok (M', r) /\ valid R C M' /\ row_equiv R C (bitat M) (bitat M') /\
    rank_is R C (bitat M) r /\ echelon R C (bitat M') r /\ (full = true -> rref R C (bitat M') r).
Proof.
  intros R C M full HM. apply okm_valid in HM.
  assert (H : wp (mzd_echelonize_naive M full) (fun '(M', r) => valid R C M' /\ row_equiv R C (bitat M) (bitat M') /\
    rank_is R C (bitat M) r /\ echelon R C (bitat M') r /\ (full = true -> rref R C (bitat M') r))).
  { apply (wp_echelonize_naive R C); auto. intros M' r q HM' HR Hr HP.
    assert (HE : row_equiv R C (bitat M) (bitat M')) by (apply (req_row_equiv R C (bitat M) _ (bitat M') _); auto).
    refine (conj (proj2 (okm_valid R C M') HM') (conj HE (conj _ (conj _ _)))).
    - apply (lowpiv_rank R C _ (bitat M') r q); auto. apply (pinv_lowpiv full); exact HP.
    - apply (pinv_echelon full R C _ r q); auto.
    - intros ->. apply (pinv_rref R C _ r q); auto. }
  destruct (wp_exists _ _ _ H) as ([M' r] & E & X). exists M', r. auto.
Qed.
(** Three rows, columns 63 and 64 are pivots, rank 2 *)
Example C83_ex_main : valid 3 65 (mkmzd 3 65 [[2 ^ 63; 1]; [2 ^ 63; 0]; [0; 1]]%N) /\
  mzd_echelonize_naive (mkmzd 3 65 [[2 ^ 63; 1]; [2 ^ 63; 0]; [0; 1]]%N) true
  = Ok (mkmzd 3 65 [[2 ^ 63; 0]; [0; 1]; [0; 0]]%N, 2).
Proof. split; [apply validb_ok|]; vm_compute; reflexivity. Qed.
(** C83: IsMatGf2Invertible decides invertibility for every square matrix with at least one row; a
    matrix that is not square is not invertible. *)
Lemma C83_is_invertible_main : forall R C M, valid R C M -> 1 <= R ->
  exists b, IsMatGf2Invertible M = Ok b /\ (b = true <-> R = C /\ invertible R (bitat M)).
Proof.
  intros R C M HM HR. apply okm_valid in HM. destruct (Nat.eq_dec R C) as [<-|Hne].
  - destruct (wp_exists _ _ _ (naive_invertible R M HM HR)) as (b & E & H). exists b. split; [exact E|]. rewrite H. intuition.
  - exists false. split; [|intuition; discriminate]. unfold IsMatGf2Invertible.
    rewrite (proj1 HM), (proj1 (proj2 HM)). destruct (Nat.eqb_spec R C); [contradiction|reflexivity].
Qed.
(** C83: a matrix without rows and columns is read out of bounds (entry (-1, -1)). *)
Lemma C83_empty_main : forall M, valid 0 0 M -> IsMatGf2Invertible M = UB.
Proof.
  intros [nr nc rs] (H1 & H2 & H3 & _). simpl in *. subst. destruct rs; [|discriminate]. reflexivity.
Qed.

(** C84: mzd_echelonize_m4ri, the Four Russians method, computes for every matrix the reduced row
    echelon form and the rank, with table size k from 1 to 10, or chosen by the function (k = 0)
    unless the matrix has at most 3 rows and more than 87381 columns. *)
Lemma C84_echelonize_m4ri_main : forall R C M k, valid R C M -> 1 <= C ->
  (k = 0 /\ (4 <= R \/ (6 * N.of_nat C <= 524288)%N)) \/ (1 <= k /\ k <= 10) ->
  exists M' r, mzd_echelonize_m4ri M k = Ok (M', r) /\ valid R C M' /\ row_equiv R C (bitat M) (bitat M') /\
    rank_is R C (bitat M) r /\ rref R C (bitat M') r.
Proof.
  intros R C M k HM HC Hk. apply okm_valid in HM. destruct (echelon_k_ok R C M k HM Hk) as [K1 K2].
  assert (H : wp (mzd_echelonize_m4ri M k) (fun '(M', r) => valid R C M' /\ row_equiv R C (bitat M) (bitat M') /\
    rank_is R C (bitat M) r /\ rref R C (bitat M') r)).
  { apply (wp_echelonize_m4ri R C); auto. intros M' r q HM' HR Hr HP.
    assert (HE : row_equiv R C (bitat M) (bitat M')) by (apply (req_row_equiv R C (bitat M) _ (bitat M') _); auto).
    refine (conj (proj2 (okm_valid R C M') HM') (conj HE (conj _ _))).
    - apply (lowpiv_rank R C _ (bitat M') r q); auto. apply (pinv_lowpiv true); exact HP.
    - apply (pinv_rref R C _ r q); auto. }
  destruct (wp_exists _ _ _ H) as ([M' r] & E & X). exists M', r. auto.
Qed.
(** Five rows of 66 columns with k = 1 and k = 0; the pivots are columns 1, 2, 64, 65 *)
Example C84_ex_main :
  let M := mkmzd 5 66 [[6; 3]; [6; 2]; [2; 1]; [0; 1]; [4; 1]]%N in valid 5 66 M /\
  mzd_echelonize_m4ri M 1 = Ok (mkmzd 5 66 [[2; 0]; [4; 0]; [0; 1]; [0; 2]; [0; 0]]%N, 4) /\
  mzd_echelonize_m4ri M 0 = Ok (mkmzd 5 66 [[2; 0]; [4; 0]; [0; 1]; [0; 2]; [0; 0]]%N, 4).
Proof. split; [apply validb_ok|split]; vm_compute; reflexivity. Qed.
(** C84: with at most 3 rows and more than 87381 columns the function chooses k = 0, and the loop
    makes no progress: no number of iterations is enough. *)
Lemma C84_forever_main : forall R C M TLs, valid R C M -> R <= 3 -> (524288 < 6 * N.of_nat C)%N ->
  echelon_k M 0 = 0 /\ forall fuel, echelon_loop fuel (echelon_k M 0) M TLs (6 * echelon_k M 0) 0 0 = UB.
Proof.
  intros R C M TLs HM HR HC. apply okm_valid in HM.
  assert (E : echelon_k M 0 = 0).
  { unfold echelon_k. cbn [Nat.eqb]. rewrite (proj1 HM), (proj1 (proj2 HM)).
    replace (opt_k R C) with 1; [|unfold opt_k, log2_floor].
    - cbn [Nat.leb]. change (2 ^ N.of_nat 1)%N with 2%N.
      destruct (N.ltb_spec (4 * 131072) (3 * 2 * N.of_nat C)); [reflexivity|lia].
    - assert (L : Nat.log2 (Nat.min R C) <= 1); [|lia]. transitivity (Nat.log2 3); [apply Nat.log2_le_mono; lia|reflexivity]. }
  split; [exact E|]. intros fuel. rewrite E. apply (echelon_loop_forever R C); auto. lia.
Qed.
(** A matrix with no rows and 87382 columns *)
Example C84_forever_ex_main : valid 0 (N.to_nat 87382) (mkmzd 0 (N.to_nat 87382) []) /\ (524288 < 6 * N.of_nat (N.to_nat 87382))%N.
Proof. split; [|rewrite N2Nat.id; reflexivity]. refine (conj eq_refl (conj eq_refl (conj eq_refl _))). intros row []. Qed.

(** C85: mzd_inv_m4ri: for every invertible matrix the result is its inverse.  For every other
    square matrix it is some invertible V such that V A is in reduced row echelon form; nothing
    tells the caller that it is not an inverse. *)
Lemma C85_inverse_main : forall n A, valid n n A -> 1 <= n ->
  exists B, mzd_inv_m4ri A = Ok B /\ valid n n B /\ (invertible n (bitat A) -> inverse_of n (bitat A) (bitat B)) /\
    invertible n (bitat B) /\ exists r, rref n n (fmul n (bitat B) (bitat A)) r.
Proof.
  intros n A HA Hn. apply okm_valid in HA. destruct (wp_exists _ _ _ (wp_inv_m4ri n A HA Hn)) as (B & E & H1 & H2 & H3 & H4).
  exists B. refine (conj E (conj (proj2 (okm_valid n n B) H1) (conj H4 (conj H2 H3)))).
Qed.
(** A 3 x 3 matrix and its inverse; the zero matrix of size 2 "inverts" to the identity *)
Example C85_ex_main : valid 3 3 (mkmzd 3 3 [[6]; [3]; [2]]%N) /\
  mzd_inv_m4ri (mkmzd 3 3 [[6]; [3]; [2]]%N) = Ok (mkmzd 3 3 [[6]; [4]; [5]]%N) /\
  mzd_inv_m4ri (mkmzd 2 2 [[0]; [0]]%N) = Ok (mkmzd 2 2 [[1]; [2]]%N).
Proof. split; [apply validb_ok|split]; vm_compute; reflexivity. Qed.
(** C85: a singular matrix for which mzd_inv_m4ri returns a matrix that is not an inverse. *)
Lemma C85_singular_refuted_main : exists A B, valid 2 2 A /\ mzd_inv_m4ri A = Ok B /\ ~ inverse_of 2 (bitat A) (bitat B).
Proof.
  exists (mkmzd 2 2 [[3]; [3]]%N), (mkmzd 2 2 [[2]; [3]]%N). split; [apply validb_ok; vm_compute; reflexivity|].
  split; [vm_compute; reflexivity|]. intros [H _]. specialize (H 1 1 ltac:(lia) ltac:(lia)). vm_compute in H. discriminate.
Qed.
