(** C124 to C128: permutations, factorisation, linear systems and kernels of M4RI. *)
From Coq Require Import Arith NArith ZArith List Bool Lia.
From Verif Require Import Base Spec LinAlg ModelM4ri SpecM4ri M4ri1 M4riD M4ri8 ModelM4ri2 SpecM4ri2 ModelStrassen SpecStrassen Strassen1 Strassen4 Main19 ModelTri SpecTri SpecRank ModelPle SpecPle Ple1 Ple2 Ple3 Ple4 Ple5 Main27.
Import ListNotations.

(** C124: mzd_apply_p_left(A, P) takes row x of the result from row perm(x) of A, where perm is the
    product of the transpositions of i and P[i]; P may be shorter than the number of rows. *)
Lemma C124_left_main : forall R C A P, valid R C A -> 1 <= C -> length P <= R ->
  (forall i, i < length P -> i <= at_ P i /\ at_ P i < R) ->
  exists A', mzd_apply_p_left A P = Ok A' /\ valid R C A' /\ same R C (bitat A') (fun x j => bitat A (perm (at_ P) (length P) x) j).
Proof.
  intros R C A P HA HC HL HP. apply okm_valid in HA. apply wp_exists. apply (apply_p_left_ok R C A P (length P)); auto; try lia.
  intros M' HM E. split; [apply okm_valid; exact HM|]. intros i j _ _. apply E.
Qed.
(** C124: mzd_apply_p_left_trans the same with the inverse permutation. *)
Lemma C124_left_trans_main : forall R C A P, valid R C A -> 1 <= C -> length P <= R ->
  (forall i, i < length P -> i <= at_ P i /\ at_ P i < R) ->
  exists A', mzd_apply_p_left_trans A P = Ok A' /\ valid R C A' /\ same R C (bitat A') (fun x j => bitat A (iperm (at_ P) (length P) x) j).
Proof.
  intros R C A P HA HC HL HP. apply okm_valid in HA. apply wp_exists. apply (apply_p_left_trans_ok R C A P (length P)); auto; try lia.
  intros M' HM E. split; [apply okm_valid; exact HM|]. intros i j _ _. apply E.
Qed.
(** C124: each undoes the other. *)
Lemma C124_inverse_main : forall R C A P, valid R C A -> 1 <= C -> length P <= R ->
  (forall i, i < length P -> i <= at_ P i /\ at_ P i < R) ->
  (exists A1 A2, mzd_apply_p_left A P = Ok A1 /\ mzd_apply_p_left_trans A1 P = Ok A2 /\ same R C (bitat A2) (bitat A)) /\
  (exists A1 A2, mzd_apply_p_left_trans A P = Ok A1 /\ mzd_apply_p_left A1 P = Ok A2 /\ same R C (bitat A2) (bitat A)).
Proof.
  intros R C A P HA HC HL HP.
  assert (WP : forall i, i < length P -> i < R /\ at_ P i < R) by (intros i Hi; split; [lia|apply HP, Hi]).
  destruct (C124_left_main R C A P HA HC HL HP) as (A1 & E1 & V1 & S1). destruct (C124_left_trans_main R C A P HA HC HL HP) as (B1 & F1 & W1 & T1).
  destruct (C124_left_trans_main R C A1 P V1 HC HL HP) as (A2 & E2 & V2 & S2). destruct (C124_left_main R C B1 P W1 HC HL HP) as (B2 & F2 & W2 & T2).
  split; [exists A1, A2|exists B1, B2].
  - refine (conj E1 (conj E2 _)). intros i j Hi Hj. rewrite S2, S1 by (try apply iperm_lt; assumption). rewrite perm_iperm. reflexivity.
  - refine (conj F1 (conj F2 _)). intros i j Hi Hj. rewrite T2, T1 by (try apply perm_lt; assumption). rewrite iperm_perm. reflexivity.
Qed.
Definition col5 : mzd := mkmzd 5 70 [[1; 3]; [2; 0]; [4; 5]; [8; 63]; [16; 1]]%N.
Example C124_ex_main : valid 5 70 col5 /\ (forall i, i < length [2; 4; 3] -> i <= at_ [2; 4; 3] i /\ at_ [2; 4; 3] i < 5) /\
  mzd_apply_p_left col5 [2; 4; 3] = Ok (mkmzd 5 70 [[4; 5]; [16; 1]; [8; 63]; [1; 3]; [2; 0]]%N) /\
  mzd_apply_p_left_trans col5 [2; 4; 3] = Ok (mkmzd 5 70 [[8; 63]; [16; 1]; [1; 3]; [4; 5]; [2; 0]]%N).
Proof.
  split; [apply validb_ok; vm_compute; reflexivity|]. split; [|split; vm_compute; reflexivity].
  intros [|[|[|i]]] Hi; cbn in *; lia.
Qed.

(** C125: mzd_col_swap(A, a, b) exchanges two columns. *)
Lemma C125_col_swap_main : forall R C A a b, valid R C A -> 1 <= R -> a < C -> b < C ->
  exists A', mzd_col_swap A a b = Ok A' /\ valid R C A' /\ same R C (bitat A') (fun i j => bitat A i (tr a b j)).
Proof.
  intros R C A a b HA HR Ha Hb. apply okm_valid in HA. apply wp_exists. apply (col_swap_ok R C); auto.
  intros M' HM E. split; [apply okm_valid; exact HM|]. intros i j Hi _. apply E, Hi.
Qed.
(** C125: mzd_col_swap_in_rows(A, a, b, start, stop) exchanges them in the rows from start to stop only. *)
Lemma C125_col_swap_in_rows_main : forall R C A a b start stop, valid R C A -> a < C -> b < C -> stop <= R ->
  exists A', mzd_col_swap_in_rows A a b start stop = Ok A' /\ valid R C A' /\
    same R C (bitat A') (fun i j => if Nat.leb start i && Nat.ltb i stop then bitat A i (tr a b j) else bitat A i j).
Proof.
  intros R C A a b start stop HA Ha Hb Hs. apply okm_valid in HA. apply wp_exists. apply (col_swap_in_rows_ok R C); auto.
  intros M' HM E. split; [apply okm_valid; exact HM|]. intros i j Hi _. apply E.
Qed.
(** C125: mzd_apply_p_right_trans(A, P) takes column j of the result from column perm(j) of A ... *)
Lemma C125_right_trans_main : forall R C A P, valid R C A -> 1 <= C -> length P = C -> (forall i, i < C -> at_ P i < C) ->
  exists A', mzd_apply_p_right_trans A P = Ok A' /\ valid R C A' /\ same R C (bitat A') (fun i j => bitat A i (perm (at_ P) C j)).
Proof.
  intros R C A P HA HC HL HP. apply okm_valid in HA. apply wp_exists. unfold mzd_apply_p_right_trans. pose proof HA as (M1 & _). rewrite M1.
  destruct (Nat.eqb_spec R 0) as [->|HR]. { apply wp_ok. split; [apply okm_valid; exact HA|]. intros i j Hi; lia. }
  apply (apply_p_right_even_ok R C A P false C); auto; try lia. intros M' HM E. split; [apply okm_valid; exact HM|].
  intros i j Hi Hj. rewrite E by assumption. unfold moved. destruct (Nat.ltb_spec j C); [reflexivity|lia].
Qed.
(** C125: ... and mzd_apply_p_right with the inverse permutation. *)
Lemma C125_right_main : forall R C A P, valid R C A -> 1 <= C -> length P = C -> (forall i, i < C -> at_ P i < C) ->
  exists A', mzd_apply_p_right A P = Ok A' /\ valid R C A' /\ same R C (bitat A') (fun i j => bitat A i (iperm (at_ P) C j)).
Proof.
  intros R C A P HA HC HL HP. apply okm_valid in HA. apply wp_exists. unfold mzd_apply_p_right. pose proof HA as (M1 & _). rewrite M1.
  destruct (Nat.eqb_spec R 0) as [->|HR]. { apply wp_ok. split; [apply okm_valid; exact HA|]. intros i j Hi; lia. }
  apply (apply_p_right_even_ok R C A P true C); auto; try lia. intros M' HM E. split; [apply okm_valid; exact HM|].
  intros i j Hi Hj. rewrite E by assumption. unfold moved. destruct (Nat.ltb_spec j C); [reflexivity|lia].
Qed.
(** C125: a permutation shorter than the number of columns: the columns it does not move stay, those it
    moves that are beyond its length become zero. *)
Lemma C125_right_short_main : forall R C A P, valid R C A -> 1 <= C -> length P <= C -> (forall i, i < length P -> at_ P i < C) ->
  exists A', mzd_apply_p_right_trans A P = Ok A' /\ valid R C A' /\
    same R C (bitat A') (fun i j => if Nat.ltb j (length P) then bitat A i (perm (at_ P) (length P) j)
                                    else Nat.eqb (perm (at_ P) (length P) j) j && bitat A i j).
Proof.
  intros R C A P HA HC HL HP. apply okm_valid in HA. apply wp_exists. unfold mzd_apply_p_right_trans. pose proof HA as (M1 & _). rewrite M1.
  destruct (Nat.eqb_spec R 0) as [->|HR]. { apply wp_ok. split; [apply okm_valid; exact HA|]. intros i j Hi; lia. }
  apply (apply_p_right_even_ok R C A P false (length P)); auto; try lia. intros M' HM E. split; [apply okm_valid; exact HM|].
  intros i j Hi Hj. rewrite E by assumption. reflexivity.
Qed.
(** C125: it is therefore not a permutation of the columns: a matrix other than zero becomes zero. *)
Lemma C125_right_short_refuted_main : exists A P A', valid 1 2 A /\ length P <= 2 /\ (forall i, i < length P -> i <= at_ P i /\ at_ P i < 2) /\
  bitat A 0 0 = true /\ mzd_apply_p_right_trans A P = Ok A' /\ bitat A' 0 0 = false /\ bitat A' 0 1 = false.
Proof.
  exists (mkmzd 1 2 [[1%N]]), [1], (mkmzd 1 2 [[0%N]]).
  split; [apply validb_ok; vm_compute; reflexivity|]. split; [cbn; lia|].
  split; [intros [|i] Hi; cbn in *; lia|]. repeat split; vm_compute; reflexivity.
Qed.
(** C125: mzd_apply_p_right_trans_tri(A, P) applies to row i only the transpositions with an index above
    i, in the order of the list, whatever the size of the blocks of rows. *)
Lemma C125_tri_main : forall R C A P step, valid R C A -> 1 <= C -> 1 <= step -> swaps C P ->
  exists A', mzd_apply_p_right_trans_tri step A P = Ok A' /\ valid R C A' /\
    same R C (bitat A') (fun i j => bitat A i (perm (fun k => if Nat.ltb i k then at_ P k else k) C j)).
Proof.
  intros R C A P step HA HC Hs SP. apply okm_valid in HA. apply wp_exists. apply (trans_tri_ok R C); auto.
  intros M' HM E. split; [apply okm_valid; exact HM|]. intros i j Hi Hj. rewrite E by assumption. f_equal.
  clear. revert j. induction C as [|k IH]; intros j; cbn [perm perm_above]; [reflexivity|]. rewrite IH.
  destruct (Nat.ltb i k); [reflexivity|]. rewrite tr_same. apply IH.
Qed.
Definition swap70 : list nat := 69 :: 69 :: seq 2 68.
Lemma swapsb_ok : forall n P, Nat.eqb (length P) n && forallb (fun i => Nat.leb i (nth i P 0) && Nat.ltb (nth i P 0) n) (seq 0 n) = true -> swaps n P.
Proof.
  intros n P H. apply andb_true_iff in H as [L H]. apply Nat.eqb_eq in L. split; [exact L|]. intros i Hi.
  rewrite forallb_forall in H. specialize (H i). rewrite in_seq in H. specialize (H ltac:(lia)). apply andb_true_iff in H as [H1 H2].
  apply Nat.leb_le in H1. apply Nat.ltb_lt in H2. split; assumption.
Qed.
Example C125_ex_main : valid 5 70 col5 /\ swaps 70 swap70 /\
  mzd_col_swap col5 2 69 = Ok (mkmzd 5 70 [[1; 3]; [2; 0]; [0; 37]; [12; 31]; [16; 1]]%N) /\
  mzd_apply_p_right_trans col5 swap70 = Ok (mkmzd 5 70 [[2; 3]; [0; 32]; [4; 5]; [9; 31]; [16; 1]]%N) /\
  mzd_apply_p_right col5 swap70 = Ok (mkmzd 5 70 [[0; 35]; [1; 0]; [4; 5]; [10; 31]; [16; 1]]%N) /\
  swaps 70 (0 :: 69 :: 64 :: seq 3 67) /\
  mzd_apply_p_right_trans_tri 2 col5 (0 :: 69 :: 64 :: seq 3 67) = Ok (mkmzd 5 70 [[5; 2]; [2; 0]; [4; 5]; [8; 63]; [16; 1]]%N).
Proof.
  split; [apply validb_ok; vm_compute; reflexivity|]. split; [apply swapsb_ok; vm_compute; reflexivity|].
  do 3 (split; [vm_compute; reflexivity|]). split; [apply swapsb_ok; vm_compute; reflexivity|]. vm_compute. reflexivity.
Qed.

(** C126: _mzd_pluq_naive(A, P, Q) writes into A, P and Q a factorisation of A, and returns the rank. *)
Lemma C126_pluq_main : forall m n A P Q, valid m n A -> length P = m -> length Q = n ->
  exists A' P' Q' r, pluq_naive A P Q = Ok (A', P', Q', r) /\ valid m n A' /\ pluq_of m n r (bitat A) (bitat A') P' Q' /\
    rank_is m n (bitat A) r.
Proof.
  intros m n A P Q HA LP LQ. apply okm_valid in HA.
  assert (H : exists st, pluq_naive A P Q = Ok st /\ let '(A', P', Q', r) := st in
     valid m n A' /\ pluq_of m n r (bitat A) (bitat A') P' Q' /\ rank_is m n (bitat A) r).
  { apply wp_exists, (pluq_naive_ok m n A P Q); auto. intros A' P' Q' r H1 H2. split; [apply okm_valid; exact H1|].
    split; [exact H2|]. apply (pluq_rank m n r _ _ _ _ H2). }
  destruct H as ([[[A' P'] Q'] r] & E & H).
  exists A', P', Q', r. split; [exact E|exact H].
Qed.
(** Of rank 2, with two exchanges of columns *)
Definition mat4 : mzd := mkmzd 4 5 [[0]; [22]; [12]; [26]]%N.
Example C126_ex_main : valid 4 5 mat4 /\ length (repeat 9 4) = 4 /\ length (repeat 9 5) = 5 /\
  pluq_naive mat4 (repeat 9 4) (repeat 9 5) = Ok (mkmzd 4 5 [[19]; [10]; [0]; [3]]%N, [1; 2; 2; 3], [1; 2; 2; 3; 4], 2).
Proof. split; [apply validb_ok; vm_compute; reflexivity|]. repeat split; vm_compute; reflexivity. Qed.

(** C127: mzd_pluq_solve_left(A, rank, P, Q, B, cutoff, check), given a factorisation of A0: if A0 X = B
    has a solution, B is replaced by one (with rows of zeros below); with the check, 0 is returned just
    in this case. *)
Lemma C127_solve_main : forall m n r b c A0 A P Q B cutoff check kcache junk, valid m n A -> valid b c B -> 1 <= c -> n <= b -> m <= b ->
  pluq_of m n r A0 (bitat A) P Q -> small m n -> small b c -> small c b -> small b b ->
  (N.of_nat cutoff < 2 ^ 29)%N -> cutoff = 0 \/ 64 <= cutoff ->
  (check = true -> cuttable cutoff r \/ m - r < 128 \/ c < 128) -> (forall b, words64 (junk b)) ->
  exists X ok, mzd_pluq_solve_left kcache junk A r P Q B cutoff check = Ok (X, ok) /\ valid b c X /\
    (check = true -> (ok = true <-> exists Xs, solves m n c A0 Xs (bitat B))) /\ (check = false -> ok = true) /\
    ((exists Xs, solves m n c A0 Xs (bitat B)) -> solves m n c A0 (bitat X) (bitat B)) /\
    (ok = true -> forall x t, n <= x -> x < b -> t < c -> bitat X x t = false).
Proof.
  intros m n r b c A0 A P Q B cutoff check kcache junk HA HB Hc Hn Hm H S0 S1 S2 S3 Hco Hr HK HJ. apply okm_valid in HA. apply okm_valid in HB.
  assert (G : exists st, mzd_pluq_solve_left kcache junk A r P Q B cutoff check = Ok st /\ let '(X, ok) := st in valid b c X /\
    (check = true -> (ok = true <-> exists Xs, solves m n c A0 Xs (bitat B))) /\ (check = false -> ok = true) /\
    ((exists Xs, solves m n c A0 Xs (bitat B)) -> solves m n c A0 (bitat X) (bitat B)) /\
    (ok = true -> forall x t, n <= x -> x < b -> t < c -> bitat X x t = false)).
  { apply wp_exists, (solve_ok kcache junk cutoff (fun b => words64_w64 _ (HJ b)) Hco Hr m n r b c A0); auto.
    intros X ok HX H1 H2 H3 H4. split; [apply okm_valid; exact HX|]. split; [exact H2|]. split; [exact H3|]. split; [exact H4|exact H1]. }
  destruct G as ([X ok] & E & G). exists X, ok. split; [exact E|exact G].
Qed.
(** C127: with the factorisation by _mzd_pluq_naive. *)
Lemma C127_naive_main : forall m n b c A P Q B cutoff kcache junk, valid m n A -> length P = m -> length Q = n -> valid b c B -> 1 <= c -> n <= b -> m <= b ->
  small m n -> small b c -> small c b -> small b b -> (N.of_nat cutoff < 2 ^ 29)%N -> cutoff = 0 \/ 128 <= cutoff -> (forall b, words64 (junk b)) ->
  exists A' P' Q' r X ok, pluq_naive A P Q = Ok (A', P', Q', r) /\ mzd_pluq_solve_left kcache junk A' r P' Q' B cutoff true = Ok (X, ok) /\ valid b c X /\
    (ok = true <-> exists Xs, solves m n c (bitat A) Xs (bitat B)) /\ (ok = true -> solves m n c (bitat A) (bitat X) (bitat B)).
Proof.
  intros m n b c A P Q B cutoff kcache junk HA LP LQ HB Hc Hn Hm S0 S1 S2 S3 Hco Hr HJ.
  destruct (C126_pluq_main m n A P Q HA LP LQ) as (A' & P' & Q' & r & E & VA & HF & _).
  destruct (C127_solve_main m n r b c (bitat A) A' P' Q' B cutoff true kcache junk VA HB Hc Hn Hm HF S0 S1 S2 S3 Hco ltac:(lia) ltac:(intros _; left; unfold cuttable; lia) HJ)
    as (X & ok & E2 & VX & K1 & _ & K3 & _).
  specialize (K1 eq_refl). exists A', P', Q', r, X, ok. split; [exact E|]. split; [exact E2|]. split; [exact VX|]. split; [exact K1|]. intros Hok. apply K3, K1, Hok.
Qed.
(** C127: of the dimensions only ncols(A) <= nrows(B) is checked: with less rows in B than in A the
    function leaves B. *)
Lemma C127_rows_refuted_main : exists A P Q B, valid 3 1 A /\ valid 2 1 B /\ pluq_of 3 1 0 (bitat A) (bitat A) P Q /\
  forall kcache junk, mzd_pluq_solve_left kcache junk A 0 P Q B 0 true = UB.
Proof.
  exists (mkmzd 3 1 [[0]; [0]; [0]]%N), [0; 1; 2], [0], (mkmzd 2 1 [[1]; [1]]%N).
  split; [apply validb_ok; vm_compute; reflexivity|]. split; [apply validb_ok; vm_compute; reflexivity|]. split; [|intros; vm_compute; reflexivity].
  split; [apply swapsb_ok; reflexivity|]. split; [apply swapsb_ok; reflexivity|]. split; [lia|]. split; [lia|].
  intros [|[|[|i]]] [|j] Hi Hj; try lia; vm_compute; reflexivity.
Qed.
(** A system that can be solved, and one that cannot *)
Definition lu4 : mzd := mkmzd 4 5 [[19]; [10]; [0]; [3]]%N.
Definition rhs6 : mzd := mkmzd 6 2 [[0]; [3]; [1]; [2]; [0]; [0]]%N.
Definition bad6 : mzd := mkmzd 6 2 [[0]; [3]; [1]; [3]; [0]; [0]]%N.
Lemma lu4_pluq : pluq_of 4 5 2 (bitat mat4) (bitat lu4) [1; 2; 2; 3] [1; 2; 2; 3; 4].
Proof.
  split; [apply swapsb_ok; reflexivity|]. split; [apply swapsb_ok; reflexivity|]. split; [lia|]. split; [lia|].
  intros [|[|[|[|i]]]] [|[|[|[|[|j]]]]] Hi Hj; try lia; vm_compute; reflexivity.
Qed.
Definition snd_of (r : res (mzd * bool)) : option bool := match r with Ok (_, ok) => Some ok | UB => None end.
Example C127_ex_main : valid 4 5 lu4 /\ valid 6 2 rhs6 /\ pluq_of 4 5 2 (bitat mat4) (bitat lu4) [1; 2; 2; 3] [1; 2; 2; 3; 4] /\
  small 4 5 /\ small 6 2 /\ small 2 6 /\ small 6 6 /\ cuttable 0 2 /\ words64 (repeat 5%N 64) /\
  mzd_pluq_solve_left 3 (fun _ => repeat 5%N 64) lu4 2 [1; 2; 2; 3] [1; 2; 2; 3; 4] rhs6 0 true = Ok (mkmzd 6 2 [[0]; [2]; [1]; [0]; [0]; [0]]%N, true) /\
  snd_of (mzd_pluq_solve_left 3 (fun _ => repeat 5%N 64) lu4 2 [1; 2; 2; 3] [1; 2; 2; 3; 4] bad6 0 true) = Some false.
Proof.
  split; [apply validb_ok; vm_compute; reflexivity|]. split; [apply validb_ok; vm_compute; reflexivity|]. split; [exact lu4_pluq|].
  do 4 (split; [vm_compute; discriminate|]). split; [left; reflexivity|].
  split; [split; [reflexivity|]; intros w H; apply repeat_spec in H; subst; reflexivity|]. split; vm_compute; reflexivity.
Qed.

(** C128: mzd_kernel_left_pluq after the factorisation of A0: NULL if A0 v = 0 has only the solution
    zero, otherwise a matrix whose columns are a basis of the solutions. *)
Lemma C128_kernel_main : forall m n r A0 A P Q cutoff kcache junk, valid m n A -> pluq_of m n r A0 (bitat A) P Q -> small n n ->
  (N.of_nat cutoff < 2 ^ 29)%N -> cutoff = 0 \/ 64 <= cutoff -> (forall b, words64 (junk b)) ->
  exists K, kernel_of_pluq kcache junk A r Q cutoff = Ok K /\
    match K with
    | None => forall v, (forall i, i < m -> xsum n (fun j => A0 i j && v j) = false) -> forall j, j < n -> v j = false
    | Some K => r < n /\ valid n (n - r) K /\ kernel_basis m n (n - r) A0 (bitat K)
    end.
Proof.
  intros m n r A0 A P Q cutoff kcache junk HA H S0 Hco Hr HJ. apply okm_valid in HA. apply wp_exists.
  apply (kernel_of_pluq_ok kcache junk cutoff (fun b => words64_w64 _ (HJ b)) Hco Hr m n r A0 A P Q); auto.
  - intros ->. intros v Hv j Hj. destruct (kernel_trivial m n A0 _ P Q (fun _ _ => false) H) as [Kb _].
    destruct (proj1 (Kb v) Hv) as [w Hw]. rewrite Hw by exact Hj. reflexivity.
  - intros K Hlt HK HB. split; [exact Hlt|]. split; [apply okm_valid; exact HK|exact HB].
Qed.
(** C128: with the factorisation by _mzd_pluq_naive. *)
Lemma C128_naive_main : forall m n A P Q cutoff kcache junk, valid m n A -> length P = m -> length Q = n -> small n n ->
  (N.of_nat cutoff < 2 ^ 29)%N -> cutoff = 0 \/ 64 <= cutoff -> (forall b, words64 (junk b)) ->
  exists A' P' Q' r K, pluq_naive A P Q = Ok (A', P', Q', r) /\ kernel_of_pluq kcache junk A' r Q' cutoff = Ok K /\ rank_is m n (bitat A) r /\
    match K with
    | None => r = n
    | Some K => valid n (n - r) K /\ kernel_basis m n (n - r) (bitat A) (bitat K)
    end.
Proof.
  intros m n A P Q cutoff kcache junk HA LP LQ S0 Hco Hr HJ.
  destruct (C126_pluq_main m n A P Q HA LP LQ) as (A' & P' & Q' & r & E & VA & HF & HR). apply okm_valid in VA.
  assert (G : exists K, kernel_of_pluq kcache junk A' r Q' cutoff = Ok K /\ match K with None => r = n | Some K => valid n (n - r) K /\ kernel_basis m n (n - r) (bitat A) (bitat K) end).
  { apply wp_exists, (kernel_of_pluq_ok kcache junk cutoff (fun b => words64_w64 _ (HJ b)) Hco Hr m n r (bitat A) A' P' Q'); auto.
    intros K Hlt HK HB. split; [apply okm_valid; exact HK|exact HB]. }
  destruct G as (K & E2 & G). exists A', P', Q', r, K. split; [exact E|]. split; [exact E2|]. split; [exact HR|exact G].
Qed.
Example C128_ex_main : valid 4 5 lu4 /\ pluq_of 4 5 2 (bitat mat4) (bitat lu4) [1; 2; 2; 3] [1; 2; 2; 3; 4] /\ small 5 5 /\ words64 (repeat 5%N 64) /\
  kernel_of_pluq 3 (fun _ => repeat 5%N 64) lu4 2 [1; 2; 2; 3; 4] 0 = Ok (Some (mkmzd 5 3 [[1]; [6]; [2]; [2]; [4]]%N)).
Proof.
  split; [apply validb_ok; vm_compute; reflexivity|]. split; [exact lu4_pluq|]. split; [vm_compute; discriminate|].
  split; [split; [reflexivity|]; intros w H; apply repeat_spec in H; subst; reflexivity|]. vm_compute. reflexivity.
Qed.
