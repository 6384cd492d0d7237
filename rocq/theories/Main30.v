(** C129 to C133: PLE factorisation, linear systems and kernels of M4RI. *)
From Coq Require Import Arith NArith ZArith List Bool Lia.
From Verif Require Import Base Spec LinAlg ModelM4ri SpecM4ri M4ri1 M4riD M4ri8 M4ri14 ModelM4ri2 SpecM4ri2 ModelStrassen SpecStrassen Strassen1 Strassen4 Main19 ModelTri SpecTri SpecRank ModelPle SpecPle ModelPle2 SpecPle2 Ple1 Ple2 Ple3 Ple4 Ple5 Main27 Main29 Ple6 Ple7 Ple8 Ple9 Ple10.
Import ListNotations.

Lemma factorises_is_ple : forall f, factorises f -> is_ple f.
Proof.
  intros f H m n A P Q HA Hn LP LQ. apply okm_valid in HA. destruct (H m n A P Q HA Hn LP LQ) as (A' & P' & Q' & r & E & V & F).
  apply okm_valid in V. exists A', P', Q', r. auto.
Qed.

(** C129: _mzd_ple_naive(A, P, Q) writes into A, P and Q a factorisation P L E of A, and returns the rank. *)
Lemma C129_naive_main : forall m n A P Q, valid m n A -> length P = m -> length Q = n ->
  exists A' P' Q' r, ple_naive A P Q = Ok (A', P', Q', r) /\ valid m n A' /\ ple_of m n r (bitat A) (bitat A') P' Q' /\ rank_is m n (bitat A) r.
Proof.
  intros m n A P Q HA LP LQ. apply okm_valid in HA.
  assert (H : exists st, ple_naive A P Q = Ok st /\ let '(A', P', Q', r) := st in
     valid m n A' /\ ple_of m n r (bitat A) (bitat A') P' Q' /\ rank_is m n (bitat A) r).
  { apply wp_exists, (ple_naive_ok m n A P Q); auto. intros A' P' Q' r H1 H2. split; [apply okm_valid; exact H1|]. split; [exact H2|]. apply (ple_rank m n r _ _ _ _ H2). }
  destruct H as ([[[A' P'] Q'] r] & E & H). exists A', P', Q', r. split; [exact E|exact H].
Qed.
(** Of rank 2, with pivots in columns 1 and 3 *)
Definition mat5 : mzd := mkmzd 4 5 [[0]; [22]; [30]; [8]]%N.
Example C129_ex_main : valid 4 5 mat5 /\ length (repeat 9 4) = 4 /\ length (repeat 9 5) = 5 /\
  ple_naive mat5 (repeat 9 4) (repeat 9 5) = Ok (mkmzd 4 5 [[21]; [3]; [0]; [2]]%N, [1; 2; 2; 3], [1; 3; 2; 3; 4], 2).
Proof. split; [apply validb_ok; vm_compute; reflexivity|]. repeat split; vm_compute; reflexivity. Qed.

(** C130: mzd_first_zero_row(A) is the number of rows up to the last that is not zero. *)
Lemma C130_first_zero_row_main : forall R C A, valid R C A -> 1 <= C ->
  exists n, mzd_first_zero_row A = Ok n /\ n <= R /\ (forall i j, n <= i -> i < R -> j < C -> bitat A i j = false) /\
    (n <> 0 -> exists j, j < C /\ bitat A (n - 1) j = true).
Proof.
  intros R C A HA HC. apply okm_valid in HA. apply wp_exists, (first_zero_row_ok R C); [exact HA|exact HC|]. intros n H1 H2 H3. split; [exact H1|]. split; [|exact H3].
  intros i j Hi1 Hi2 _. apply H2; assumption.
Qed.
(** C130: _mzd_compress_l(A, r1, n1, r2), whose rows from r1 on have zeros in the columns from r1 to n1
    and whose rows from r1 + r2 on have them from n1 + r2 on: in row x the first min(x - r1 + 1, r2)
    columns from n1 on are moved to r1; what is behind them up to where they were becomes zero. *)
Lemma C130_compress_main : forall R C A r1 n1 r2, valid R C A -> r1 <= n1 -> n1 mod 64 = 0 -> n1 < C -> n1 + r2 <= C -> r1 + r2 <= R ->
  (forall i j, r1 <= i -> i < R -> r1 <= j -> j < n1 -> bitat A i j = false) ->
  (forall i j, r1 + r2 <= i -> i < R -> n1 + r2 <= j -> j < C -> bitat A i j = false) ->
  exists A', compress_l A r1 n1 r2 = Ok A' /\ valid R C A' /\
    (forall i j, i < R -> j < C -> i < r1 \/ j < r1 -> bitat A' i j = bitat A i j) /\
    (forall i t, r1 <= i -> i < R -> t < r2 -> t <= i - r1 -> bitat A' i (r1 + t) = bitat A i (n1 + t)) /\
    (forall i j, r1 <= i -> i < R -> j < C -> r1 + Nat.min (i - r1 + 1) r2 <= j -> j < n1 + Nat.min (i - r1 + 1) r2 -> bitat A' i j = false) /\
    (forall i j, r1 <= i -> i < R -> j < C -> n1 + Nat.min (i - r1 + 1) r2 <= j -> bitat A' i j = bitat A i j).
Proof.
  intros R C A r1 n1 r2 HA H1 H2 H3 H4 H5 Z1 Z2. apply okm_valid in HA. apply wp_exists, (compress_l_ok R C); auto.
  intros M' HM' E. split; [apply okm_valid; exact HM'|]. unfold moved_left in E. repeat split; intros; rewrite E by assumption.
  - destruct (Nat.ltb_spec i r1), (Nat.ltb_spec j r1); try lia; reflexivity.
  - destruct (Nat.ltb_spec i r1), (Nat.ltb_spec (r1 + t) r1), (Nat.ltb_spec (r1 + t) (r1 + Nat.min (i - r1 + 1) r2)); try lia; f_equal; lia.
  - destruct (Nat.ltb_spec i r1), (Nat.ltb_spec j r1), (Nat.ltb_spec j (r1 + Nat.min (i - r1 + 1) r2)), (Nat.ltb_spec j (n1 + Nat.min (i - r1 + 1) r2)); try lia; reflexivity.
  - destruct (Nat.ltb_spec i r1), (Nat.ltb_spec j r1), (Nat.ltb_spec j (r1 + Nat.min (i - r1 + 1) r2)), (Nat.ltb_spec j (n1 + Nat.min (i - r1 + 1) r2)); try lia; reflexivity.
Qed.
Definition zero_in (lo hi a b : nat) (A : mzd) : bool := forallb (fun i => forallb (fun j => negb (bitat A i j)) (seq a (b - a))) (seq lo (hi - lo)).
Lemma zero_in_ok : forall lo hi a b A, zero_in lo hi a b A = true -> forall i j, lo <= i -> i < hi -> a <= j -> j < b -> bitat A i j = false.
Proof.
  intros lo hi a b A H i j H1 H2 H3 H4. unfold zero_in in H. rewrite forallb_forall in H. specialize (H i ltac:(apply in_seq; lia)).
  rewrite forallb_forall in H. specialize (H j ltac:(apply in_seq; lia)). apply negb_true_iff in H. exact H.
Qed.
Definition lmat : mzd := mkmzd 5 70 [[7; 3]; [1; 37]; [0; 2]; [1; 3]; [0; 0]]%N.
Example C130_ex_main : valid 5 70 lmat /\ zero_in 1 5 1 64 lmat = true /\ zero_in 3 5 66 70 lmat = true /\
  mzd_first_zero_row lmat = Ok 4 /\
  compress_l lmat 1 64 2 = Ok (mkmzd 5 70 [[7; 3]; [3; 36]; [4; 0]; [7; 0]; [0; 0]]%N).
Proof. split; [apply validb_ok; vm_compute; reflexivity|]. repeat split; vm_compute; reflexivity. Qed.

(** C131: mzd_ple(A, P, Q, cutoff), if _mzd_ple_russian factorises the matrices at the end of the
    recursion: A, P and Q are a factorisation P L E of A, and the rank is returned. *)
Lemma C131_ple_main : forall russian kcache junk ple_cutoff m n A P Q cutoff, factorises russian ->
  valid m n A -> 1 <= n -> length P = m -> length Q = n -> small m n -> small n m ->
  (N.of_nat cutoff < 2 ^ 29)%N -> cutoff = 0 \/ 128 <= cutoff -> (forall b, words64 (junk b)) ->
  exists A' P' Q' r, mzd_ple kcache junk ple_cutoff russian A P Q cutoff = Ok (A', P', Q', r) /\
    valid m n A' /\ ple_of m n r (bitat A) (bitat A') P' Q' /\ rank_is m n (bitat A) r.
Proof.
  intros russian kcache junk ple_cutoff m n A P Q cutoff HR HA Hn LP LQ S0 S1 Hco Hr HJ. apply okm_valid in HA.
  assert (H : exists st, mzd_ple kcache junk ple_cutoff russian A P Q cutoff = Ok st /\ let '(A', P', Q', r) := st in
     valid m n A' /\ ple_of m n r (bitat A) (bitat A') P' Q' /\ rank_is m n (bitat A) r).
  { apply wp_exists. unfold mzd_ple. pose proof HA as (A1 & A2 & _). rewrite A1, A2, LP, LQ, !Nat.eqb_refl. cbn [negb orb].
    apply (ple_rec_ok kcache junk ple_cutoff cutoff russian (fun b => words64_w64 _ (HJ b)) Hco Hr (factorises_is_ple _ HR) (S n) m n A P Q); auto.
    intros A' P' Q' r H1 H2. split; [apply okm_valid; exact H1|]. split; [exact H2|]. apply (ple_rank m n r _ _ _ _ H2). }
  destruct H as ([[[A' P'] Q'] r] & E & H). exists A', P', Q', r. split; [exact E|exact H].
Qed.
(** C131: mzd_pluq(A, P, Q, cutoff) likewise a factorisation P L U Q. *)
Lemma C131_pluq_main : forall russian kcache junk ple_cutoff step m n A P Q cutoff, factorises russian -> 1 <= step ->
  valid m n A -> 1 <= n -> length P = m -> length Q = n -> small m n -> small n m ->
  (N.of_nat cutoff < 2 ^ 29)%N -> cutoff = 0 \/ 128 <= cutoff -> (forall b, words64 (junk b)) ->
  exists A' P' Q' r, mzd_pluq kcache junk ple_cutoff russian step A P Q cutoff = Ok (A', P', Q', r) /\
    valid m n A' /\ pluq_of m n r (bitat A) (bitat A') P' Q' /\ rank_is m n (bitat A) r.
Proof.
  intros russian kcache junk ple_cutoff step m n A P Q cutoff HR Hs HA Hn LP LQ S0 S1 Hco Hr HJ. apply okm_valid in HA.
  assert (H : exists st, mzd_pluq kcache junk ple_cutoff russian step A P Q cutoff = Ok st /\ let '(A', P', Q', r) := st in
     valid m n A' /\ pluq_of m n r (bitat A) (bitat A') P' Q' /\ rank_is m n (bitat A) r).
  { apply wp_exists. unfold mzd_pluq. pose proof HA as (A1 & A2 & _). rewrite A1, A2, LP, LQ, !Nat.eqb_refl. cbn [negb orb].
    apply (pluq_ok kcache junk ple_cutoff cutoff russian (fun b => words64_w64 _ (HJ b)) Hco Hr (factorises_is_ple _ HR) step m n A P Q); auto.
    intros A' P' Q' r H1 H2. split; [apply okm_valid; exact H1|]. split; [exact H2|]. apply (pluq_rank m n r _ _ _ _ H2). }
  destruct H as ([[[A' P'] Q'] r] & E & H). exists A', P', Q', r. split; [exact E|exact H].
Qed.
(** C131: _mzd_ple_naive factorises, so that the recursion with it in the place of _mzd_ple_russian is
    correct without a condition. *)
Lemma C131_base_main : factorises ple_naive.
Proof.
  intros m n A P Q HA Hn LP LQ. apply okm_valid in HA. destruct (naive_is_ple m n A P Q HA Hn LP LQ) as (A' & P' & Q' & r & E & V & F).
  exists A', P', Q', r. split; [exact E|]. split; [apply okm_valid; exact V|exact F].
Qed.
(** Two blocks of columns: pivots in columns 1, 64 and 66 *)
Definition mat70 : mzd := mkmzd 5 70 [[2; 1]; [2; 0]; [6; 5]; [0; 4]; [0; 0]]%N.
Example C131_ex_main : valid 5 70 mat70 /\ small 5 70 /\ small 70 5 /\ words64 (repeat 5%N 64) /\
  mzd_ple 3 (fun _ => repeat 5%N 64) 0 ple_naive mat70 (repeat 9 5) (repeat 9 70) 0 =
    Ok (mkmzd 5 70 [[1; 1]; [3; 4]; [5; 0]; [8; 0]; [0; 0]]%N, [0; 2; 2; 3; 4], [1; 2; 64; 66] ++ seq 4 60 ++ [64; 66; 66; 67; 68; 69], 4) /\
  mzd_pluq 3 (fun _ => repeat 5%N 64) 0 ple_naive 2 mat70 (repeat 9 5) (repeat 9 70) 0 =
    Ok (mkmzd 5 70 [[5; 0]; [11; 0]; [5; 0]; [8; 0]; [0; 0]]%N, [0; 2; 2; 3; 4], [1; 2; 64; 66] ++ seq 4 60 ++ [64; 66; 66; 67; 68; 69], 4).
Proof.
  split; [apply validb_ok; vm_compute; reflexivity|]. do 2 (split; [vm_compute; discriminate|]).
  split; [split; [reflexivity|]; intros w H; apply repeat_spec in H; subst; reflexivity|]. split; vm_compute; reflexivity.
Qed.

(** C132: mzd_solve_left(A, B, cutoff, inconsistency_check) with as many rows in B as A has rows and
    columns: with the check 0 is returned exactly if A X = B has a solution; if it has one, B becomes one;
    and if 0 is returned the rows of B behind the columns of A become zero. *)
Lemma C132_solve_main : forall russian kcache junk ple_cutoff step m n b c A B cutoff check, factorises russian -> 1 <= step ->
  valid m n A -> 1 <= n -> valid b c B -> 1 <= c -> n <= b -> m <= b -> small b b -> small b c -> small c b ->
  (N.of_nat cutoff < 2 ^ 29)%N -> cutoff = 0 \/ 128 <= cutoff -> (forall b, words64 (junk b)) ->
  exists A' X ok, mzd_solve_left kcache junk ple_cutoff russian step A B cutoff check = Ok (A', X, ok) /\ valid b c X /\
    (check = true -> (ok = true <-> exists Xs, solves m n c (bitat A) Xs (bitat B))) /\ (check = false -> ok = true) /\
    ((exists Xs, solves m n c (bitat A) Xs (bitat B)) -> solves m n c (bitat A) (bitat X) (bitat B)) /\
    (ok = true -> forall x t, n <= x -> x < b -> t < c -> bitat X x t = false).
Proof.
  intros russian kcache junk ple_cutoff step m n b c A B cutoff check HR Hs HA Hn HB Hc1 Hnb Hmb S0 S1 S2 Hco Hr HJ. apply okm_valid in HA. apply okm_valid in HB.
  assert (H : exists st, mzd_solve_left kcache junk ple_cutoff russian step A B cutoff check = Ok st /\ let '(A', X, ok) := st in valid b c X /\
    (check = true -> (ok = true <-> exists Xs, solves m n c (bitat A) Xs (bitat B))) /\ (check = false -> ok = true) /\
    ((exists Xs, solves m n c (bitat A) Xs (bitat B)) -> solves m n c (bitat A) (bitat X) (bitat B)) /\
    (ok = true -> forall x t, n <= x -> x < b -> t < c -> bitat X x t = false)).
  { assert (Fm : fits m n /\ fits n m) by (split; apply (fits_le b b); try assumption; lia). destruct Fm as [F1 F2].
    apply wp_exists. unfold mzd_solve_left. pose proof HA as (A1 & A2 & _). pose proof HB as (B1 & B2 & _). rewrite A1, A2, B1.
    destruct (Nat.ltb_spec b n); [lia|].
    apply wp_bind, (pluq_ok kcache junk ple_cutoff cutoff russian (fun b => words64_w64 _ (HJ b)) Hco Hr (factorises_is_ple _ HR) step m n A); auto; try apply seq_length.
    intros A' P' Q' r HA' HF.
    apply wp_bind, (solve_ok kcache junk cutoff (fun b => words64_w64 _ (HJ b)) Hco ltac:(lia) m n r b c (bitat A)); auto; [intros _; left; unfold cuts; lia|].
    intros X ok HX H1 H2 H3 H4. apply wp_ok. split; [apply okm_valid; exact HX|]. split; [exact H2|]. split; [exact H3|]. split; [exact H4|exact H1]. }
  destruct H as ([[A' X] ok] & E & H). exists A', X, ok. split; [exact E|exact H].
Qed.
(** A system that can be solved, and one that cannot *)
Definition ok_of (r : res (mzd * mzd * bool)) : option bool := match r with Ok (_, _, ok) => Some ok | UB => None end.
Example C132_ex_main : factorises ple_naive /\ valid 4 5 mat5 /\ valid 5 2 (mkmzd 5 2 [[0]; [3]; [1]; [2]; [0]]%N) /\ small 5 5 /\ small 5 2 /\ small 2 5 /\ words64 (repeat 5%N 64) /\
  mzd_solve_left 3 (fun _ => repeat 5%N 64) 0 ple_naive 2 mat5 (mkmzd 5 2 [[0]; [3]; [1]; [2]; [0]]%N) 0 true =
    Ok (mkmzd 4 5 [[21]; [3]; [0]; [2]]%N, mkmzd 5 2 [[0]; [3]; [0]; [2]; [0]]%N, true) /\
  ok_of (mzd_solve_left 3 (fun _ => repeat 5%N 64) 0 ple_naive 2 mat5 (mkmzd 5 2 [[0]; [3]; [1]; [3]; [0]]%N) 0 true) = Some false.
Proof.
  split; [exact C131_base_main|]. do 2 (split; [apply validb_ok; vm_compute; reflexivity|]). do 3 (split; [vm_compute; discriminate|]).
  split; [split; [reflexivity|]; intros w H; apply repeat_spec in H; subst; reflexivity|]. split; vm_compute; reflexivity.
Qed.

(** C133: mzd_kernel_left_pluq(A, cutoff): NULL if A v = 0 has only the solution zero, otherwise a matrix
    whose columns are a basis of the solutions. *)
Lemma C133_kernel_main : forall russian kcache junk ple_cutoff step m n A cutoff, factorises russian -> 1 <= step ->
  valid m n A -> 1 <= n -> small m n -> small n m -> small n n ->
  (N.of_nat cutoff < 2 ^ 29)%N -> cutoff = 0 \/ 128 <= cutoff -> (forall b, words64 (junk b)) ->
  exists A' K r, mzd_kernel_left_pluq kcache junk ple_cutoff russian step A cutoff = Ok (A', K) /\ rank_is m n (bitat A) r /\
    match K with
    | None => r = n /\ forall v, (forall i, i < m -> xsum n (fun j => bitat A i j && v j) = false) -> forall j, j < n -> v j = false
    | Some K => r < n /\ valid n (n - r) K /\ kernel_basis m n (n - r) (bitat A) (bitat K)
    end.
Proof.
  intros russian kcache junk ple_cutoff step m n A cutoff HR Hs HA Hn S0 S1 S2 Hco Hr HJ.
  assert (VA : okm m n A) by (apply okm_valid; exact HA). pose proof VA as (A1 & A2 & _).
  destruct (C131_pluq_main russian kcache junk ple_cutoff step m n A (mzp_init m) (mzp_init n) cutoff HR Hs HA Hn (seq_length _ _) (seq_length _ _) S0 S1 Hco Hr HJ)
    as (A' & P' & Q' & r & E & VA' & HF & HK).
  destruct (C128_kernel_main m n r (bitat A) A' P' Q' cutoff kcache junk VA' HF S2 Hco ltac:(lia) HJ) as (K & EK & H).
  exists A', K, r. unfold mzd_kernel_left_pluq. rewrite A1, A2, E. cbn [bind]. rewrite EK. cbn [bind]. split; [reflexivity|]. split; [exact HK|].
  destruct K as [K|]; [exact H|]. split; [|exact H].
  unfold kernel_of_pluq in EK. apply okm_valid in VA'. pose proof VA' as (_ & A3 & _). rewrite A3 in EK.
  destruct (Nat.eqb_spec r n) as [Hrn|Hrn]; [exact Hrn|].
  exfalso. assert (G : exists K, kernel_of_pluq kcache junk A' r Q' cutoff = Ok K /\ (K = None -> r = n)).
  { apply wp_exists, (kernel_of_pluq_ok kcache junk cutoff (fun b => words64_w64 _ (HJ b)) Hco ltac:(lia) m n r (bitat A) A' P' Q'); auto. intros; discriminate. }
  destruct G as (K & E1 & E2). unfold kernel_of_pluq in E1. rewrite A3 in E1. destruct (Nat.eqb_spec r n); [contradiction|]. rewrite EK in E1. injection E1 as <-. auto.
Qed.
Example C133_ex_main : factorises ple_naive /\ valid 4 5 mat5 /\ small 4 5 /\ small 5 4 /\ small 5 5 /\ words64 (repeat 5%N 64) /\
  mzd_kernel_left_pluq 3 (fun _ => repeat 5%N 64) 0 ple_naive 2 mat5 0 =
    Ok (mkmzd 4 5 [[21]; [3]; [0]; [2]]%N, Some (mkmzd 5 3 [[2]; [5]; [1]; [0]; [4]]%N)).
Proof.
  split; [exact C131_base_main|]. split; [apply validb_ok; vm_compute; reflexivity|]. do 3 (split; [vm_compute; discriminate|]).
  split; [split; [reflexivity|]; intros w H; apply repeat_spec in H; subst; reflexivity|]. vm_compute; reflexivity.
Qed.
