(** C86 to C91: M4RI: transposition, parities, products, sums, parts, comparisons, naive inverse. *)
From Coq Require Import Arith NArith ZArith List Bool Lia.
From Verif Require Import Base Spec LinAlg ModelM4ri SpecM4ri M4ri1 M4ri8 ModelM4ri2 SpecM4ri2 M4ri9 M4ri14 M4ri15 M4ri16 M4ri17 M4ri18 M4ri19 M4ri20.
Import ListNotations.

Lemma words64_w64 : forall l, words64 l -> length l = 64 /\ w64 l.
Proof.
  intros l [HL H]. split; [exact HL|]. intros k b Hb. unfold rw.
  destruct (Nat.lt_ge_cases k (length l)) as [Hk|Hk].
  - assert (HI := H (nth k l 0%N) (nth_In l 0%N Hk)). change (2 ^ 64)%N with (2 ^ N.of_nat 64)%N in HI.
    rewrite tb_lt in HI. apply HI. exact Hb.
  - rewrite nth_overflow by exact Hk. apply tb_0.
Qed.

(** C86: mzd_transpose(NULL, A) is the transpose of A, for every matrix with at least one row and one
    column that fits into one block of memory, whatever the 64 words of the stack array of
    _mzd_copy_transpose_lt64x64 contain before. *)
Lemma C86_transpose_main : forall R C A junk, valid R C A -> 1 <= R -> 1 <= C -> small R C -> small C R ->
  (forall b, words64 (junk b)) ->
  exists T, mzd_transpose junk A = Ok T /\ valid C R T /\ forall i j, i < R -> j < C -> bitat T j i = bitat A i j.
Proof.
  intros R C A junk HA HR HC S1 S2 HJ. apply okm_valid in HA.
  destruct (wp_exists _ _ _ (wp_transpose R C junk A (fun T => okm C R T /\ forall i j, i < R -> j < C -> bitat T j i = bitat A i j)
    HA HR HC S1 S2 (fun b => words64_w64 _ (HJ b)) (fun T H1 H2 => conj H1 H2))) as (T & E & H1 & H2).
  exists T. split; [exact E|]. split; [apply okm_valid; exact H1|exact H2].
Qed.
(** A 2 x 66 matrix; the stack array full of ones *)
Example C86_ex_main : valid 2 66 (mkmzd 2 66 [[5; 2]; [4; 1]]%N) /\ small 2 66 /\ small 66 2 /\ words64 (repeat (2 ^ 64 - 1)%N 64) /\
  match mzd_transpose (fun _ => repeat (2 ^ 64 - 1)%N 64) (mkmzd 2 66 [[5; 2]; [4; 1]]%N) with
  | Ok T => firstn 4 (mrows T) = [[1]; [0]; [3]; [0]]%N /\ skipn 64 (mrows T) = [[2]; [1]]%N
  | UB => False
  end.
Proof.
  split; [apply validb_ok; vm_compute; reflexivity|]. split; [vm_compute; discriminate|]. split; [vm_compute; discriminate|].
  split; [split; [reflexivity|]; intros w H; apply repeat_spec in H; subst; reflexivity|]. vm_compute. split; reflexivity.
Qed.
(** C86: a matrix with rows but without columns, or with columns but without rows, stops the program:
    mzd_copy is called with matrices of different sizes. *)
Lemma C86_empty_main : forall R C A junk, valid R C A -> R + C >= 1 -> R = 0 \/ C = 0 -> mzd_transpose junk A = UB.
Proof.
  intros R C A junk [H1 [H2 _]] HS H0. unfold mzd_transpose. rewrite H1, H2.
  destruct (Nat.eqb_spec R 0), (Nat.eqb_spec C 0); try lia; reflexivity.
Qed.
Example C86_empty_ex_main : valid 2 0 (mkmzd 2 0 [[]; []]).
Proof. apply validb_ok. reflexivity. Qed.

(** C87: m4ri_parity64: bit p of the result is the parity of word p. *)
Lemma C87_parity64_main : forall l, words64 l ->
  (parity64 l < 2 ^ 64)%N /\
  forall p, p < 64 -> N.testbit (parity64 l) (N.of_nat p) = xsum 64 (fun b => N.testbit (nth p l 0%N) (N.of_nat b)).
Proof.
  intros l Hl. apply words64_w64 in Hl as [_ HW]. destruct (parity64_ok l HW) as [H1 H2]. split.
  - change (2 ^ 64)%N with (2 ^ N.of_nat 64)%N. apply tb_lt. exact H1.
  - exact H2.
Qed.
Example C87_ex_main : words64 ([7; 3; 2 ^ 63]%N ++ repeat 1%N 61) /\
  parity64 ([7; 3; 2 ^ 63]%N ++ repeat 1%N 61) = (2 ^ 64 - 3)%N.
Proof.
  split; [|vm_compute; reflexivity]. split; [reflexivity|]. intros w H.
  destruct H as [<-|[<-|[<-|H]]]; try reflexivity. apply repeat_spec in H. subst. reflexivity.
Qed.

(** C88: mzd_mul_m4rm(NULL, A, B, k), the Four Russians product, is the product over GF(2) for every
    k and every value of the cache size; mzd_mul_naive, the cubic product, is it too, whatever C
    contains before. *)
Lemma C88_mul_m4rm_main : forall R n C A B k kcache junk, valid R n A -> valid n C B -> 1 <= n -> 1 <= C ->
  small n C -> small C n -> (forall b, words64 (junk b)) ->
  exists P, mzd_mul_m4rm kcache junk A B k = Ok P /\ valid R C P /\ is_product R n C (bitat A) (bitat B) (bitat P).
Proof.
  intros R n C A B k kcache junk HA HB H1 H2 S1 S2 HJ. apply okm_valid in HA, HB.
  destruct (wp_exists _ _ _ (wp_mul_m4rm R n C kcache junk A B k (fun P => okm R C P /\ is_product R n C (bitat A) (bitat B) (bitat P))
    HA HB H1 H2 S1 S2 (fun b => words64_w64 _ (HJ b)) (fun P Q1 Q2 => conj Q1 Q2))) as (P & E & Q1 & Q2).
  exists P. split; [exact E|]. split; [apply okm_valid; exact Q1|exact Q2].
Qed.
Lemma C88_mul_naive_main : forall R n C A B C0 junk, valid R n A -> valid n C B -> valid R C C0 -> 1 <= n -> 1 <= C ->
  small n C -> small C n -> (forall b, words64 (junk b)) ->
  exists P, mzd_mul_naive junk C0 A B = Ok P /\ valid R C P /\ is_product R n C (bitat A) (bitat B) (bitat P).
Proof.
  intros R n C A B C0 junk HA HB HC0 H1 H2 S1 S2 HJ. apply okm_valid in HA, HB, HC0.
  destruct (wp_exists _ _ _ (wp_mul_naive R n C junk C0 A B (fun P => okm R C P /\ is_product R n C (bitat A) (bitat B) (bitat P))
    HC0 HA HB H1 H2 S1 S2 (fun b => words64_w64 _ (HJ b)) (fun P Q1 Q2 => conj Q1 Q2))) as (P & E & Q1 & Q2).
  exists P. split; [exact E|]. split; [apply okm_valid; exact Q1|exact Q2].
Qed.
(** C88: hence the two products agree. *)
Lemma C88_agree_main : forall R n C A B C0 k kcache junk junk', valid R n A -> valid n C B -> valid R C C0 -> 1 <= n -> 1 <= C ->
  small n C -> small C n -> (forall b, words64 (junk b)) -> (forall b, words64 (junk' b)) ->
  exists P P', mzd_mul_m4rm kcache junk A B k = Ok P /\ mzd_mul_naive junk' C0 A B = Ok P' /\ same R C (bitat P) (bitat P').
Proof.
  intros R n C A B C0 k kcache junk junk' HA HB HC H1 H2 S1 S2 HJ HJ'.
  destruct (C88_mul_m4rm_main R n C A B k kcache junk HA HB H1 H2 S1 S2 HJ) as (P & E & _ & Q).
  destruct (C88_mul_naive_main R n C A B C0 junk' HA HB HC H1 H2 S1 S2 HJ') as (P' & E' & _ & Q').
  exists P, P'. split; [exact E|]. split; [exact E'|]. intros i j Hi Hj. rewrite Q, Q' by assumption. reflexivity.
Qed.
Example C88_ex_main : valid 2 3 (mkmzd 2 3 [[5]; [6]]%N) /\ valid 3 65 (mkmzd 3 65 [[3; 1]; [4; 0]; [2; 1]]%N) /\
  mzd_mul_m4rm 8 (fun _ => repeat 0%N 64) (mkmzd 2 3 [[5]; [6]]%N) (mkmzd 3 65 [[3; 1]; [4; 0]; [2; 1]]%N) 0
  = Ok (mkmzd 2 65 [[1; 0]; [6; 1]]%N) /\
  mzd_mul_naive (fun _ => repeat 0%N 64) (mzd_init 2 65) (mkmzd 2 3 [[5]; [6]]%N) (mkmzd 3 65 [[3; 1]; [4; 0]; [2; 1]]%N)
  = Ok (mkmzd 2 65 [[1; 0]; [6; 1]]%N).
Proof. split; [apply validb_ok; vm_compute; reflexivity|]. split; [apply validb_ok; vm_compute; reflexivity|]. split; vm_compute; reflexivity. Qed.

(** C89: mzd_add(NULL, A, B) is the sum, mzd_concat the matrix (A | B), mzd_stack A above B. *)
Lemma C89_add_main : forall R C A B, valid R C A -> valid R C B ->
  exists M, mzd_add A B = Ok M /\ valid R C M /\ same R C (bitat M) (fadd (bitat A) (bitat B)).
Proof.
  intros R C A B HA HB. apply okm_valid in HA, HB.
  destruct (wp_exists _ _ _ (wp_add R C A B (fun M => okm R C M /\ forall i j, i < R -> bitat M i j = xorb (bitat A i j) (bitat B i j))
    HA HB (fun P Q1 Q2 => conj Q1 Q2))) as (P & E & Q1 & Q2).
  exists P. split; [exact E|]. split; [apply okm_valid; exact Q1|]. intros i j Hi _. apply Q2. exact Hi.
Qed.
Lemma C89_concat_main : forall R CA CB A B, valid R CA A -> valid R CB B ->
  exists M, mzd_concat A B = Ok M /\ valid R (CA + CB) M /\
    same R CA (bitat M) (bitat A) /\ same R CB (fun i j => bitat M i (CA + j)) (bitat B).
Proof.
  intros R CA CB A B HA HB. apply okm_valid in HA, HB.
  destruct (wp_exists _ _ _ (wp_concat R CA CB A B (fun M => okm R (CA + CB) M /\ forall i j, i < R ->
    bitat M i j = if Nat.ltb j CA then bitat A i j else bitat B i (j - CA)) HA HB (fun P Q1 Q2 => conj Q1 Q2))) as (P & E & Q1 & Q2).
  exists P. split; [exact E|]. split; [apply okm_valid; exact Q1|]. split; intros i j Hi Hj; rewrite Q2 by exact Hi.
  - destruct (Nat.ltb_spec j CA); [reflexivity|lia].
  - destruct (Nat.ltb_spec (CA + j) CA); [lia|]. f_equal. lia.
Qed.
Lemma C89_stack_main : forall RA RB C A B, valid RA C A -> valid RB C B ->
  exists M, mzd_stack A B = Ok M /\ valid (RA + RB) C M /\
    same RA C (bitat M) (bitat A) /\ same RB C (fun i j => bitat M (RA + i) j) (bitat B).
Proof.
  intros RA RB C A B HA HB. apply okm_valid in HA, HB.
  destruct (wp_exists _ _ _ (wp_stack RA RB C A B (fun M => okm (RA + RB) C M /\ forall i j, i < RA + RB ->
    bitat M i j = if Nat.ltb i RA then bitat A i j else bitat B (i - RA) j) HA HB (fun P Q1 Q2 => conj Q1 Q2))) as (P & E & Q1 & Q2).
  exists P. split; [exact E|]. split; [apply okm_valid; exact Q1|]. split; intros i j Hi Hj; rewrite Q2 by lia.
  - destruct (Nat.ltb_spec i RA); [reflexivity|lia].
  - destruct (Nat.ltb_spec (RA + i) RA); [lia|]. f_equal. lia.
Qed.
Example C89_ex_main : valid 2 65 (mkmzd 2 65 [[3; 1]; [4; 0]]%N) /\ valid 2 65 (mkmzd 2 65 [[1; 1]; [2; 1]]%N) /\
  mzd_add (mkmzd 2 65 [[3; 1]; [4; 0]]%N) (mkmzd 2 65 [[1; 1]; [2; 1]]%N) = Ok (mkmzd 2 65 [[2; 0]; [6; 1]]%N) /\
  mzd_concat (mkmzd 2 65 [[3; 1]; [4; 0]]%N) (mkmzd 2 65 [[1; 1]; [2; 1]]%N)
  = Ok (mkmzd 2 130 [[3; 3; 2]; [4; 4; 2]]%N) /\
  mzd_stack (mkmzd 2 65 [[3; 1]; [4; 0]]%N) (mkmzd 2 65 [[1; 1]; [2; 1]]%N) = Ok (mkmzd 4 65 [[3; 1]; [4; 0]; [1; 1]; [2; 1]]%N).
Proof. split; [apply validb_ok; vm_compute; reflexivity|]. split; [apply validb_ok; vm_compute; reflexivity|]. repeat split; vm_compute; reflexivity. Qed.
(** C89: mzd_submatrix(NULL, M, sr, sc, er, ec) is the rows sr to er - 1 and the columns sc to ec - 1
    of M, if sc is a multiple of 64 or the number of columns is not one. *)
Lemma C89_submatrix_main : forall R C M sr sc er ec, valid R C M -> sr <= er -> er <= R -> sc <= ec -> ec <= C ->
  sc mod 64 = 0 \/ (ec - sc) mod 64 <> 0 ->
  exists S, mzd_submatrix M sr sc er ec = Ok S /\ valid (er - sr) (ec - sc) S /\
    same (er - sr) (ec - sc) (bitat S) (fun i j => bitat M (sr + i) (sc + j)).
Proof.
  intros R C M sr sc er ec HM H1 H2 H3 H4 H5. apply okm_valid in HM.
  destruct (wp_exists _ _ _ (wp_submatrix R C M sr sc er ec (fun S => okm (er - sr) (ec - sc) S /\
    same (er - sr) (ec - sc) (bitat S) (fun i j => bitat M (sr + i) (sc + j))) HM H1 H2 H3 H4 H5 (fun P Q1 Q2 => conj Q1 Q2))) as (P & E & Q1 & Q2).
  exists P. split; [exact E|]. split; [apply okm_valid; exact Q1|exact Q2].
Qed.
(** C89: in the other case, with at least one row, 0 bits are read after the last full word: a shift
    by 64, and an access behind the row of the result. *)
Lemma C89_submatrix_undefined_main : forall M sr sc er ec, sr < er -> sc <= ec -> sc mod 64 <> 0 -> (ec - sc) mod 64 = 0 ->
  mzd_submatrix M sr sc er ec = UB.
Proof. exact submatrix_ub. Qed.
Example C89_submatrix_ex_main : valid 2 67 (mkmzd 2 67 [[3; 1]; [2 ^ 63; 6]]%N) /\
  mzd_submatrix (mkmzd 2 67 [[3; 1]; [2 ^ 63; 6]]%N) 1 63 2 67 = Ok (mkmzd 1 4 [[13]]%N) /\
  mzd_submatrix (mkmzd 2 67 [[3; 1]; [2 ^ 63; 6]]%N) 1 1 2 66 = Ok (mkmzd 1 65 [[2 ^ 62; 1]]%N) /\
  mzd_submatrix (mkmzd 2 67 [[3; 1]; [2 ^ 63; 6]]%N) 0 1 2 65 = UB.
Proof. split; [apply validb_ok; vm_compute; reflexivity|]. repeat split; vm_compute; reflexivity. Qed.

(** C90: mzd_cmp of two matrices of the same size is -1, 0 or 1; it is 0 exactly for equal matrices
    and -1 exactly if A comes before B: the first different row decides, there the last different
    column. *)
Lemma C90_cmp_main : forall R C A B, valid R C A -> valid R C B -> 1 <= C ->
  exists z, mzd_cmp A B = Ok z /\ (z = -1 \/ z = 0 \/ z = 1)%Z /\
    (z = 0%Z <-> same R C (bitat A) (bitat B)) /\
    (z = (-1)%Z <-> mat_before R C (bitat A) (bitat B)) /\ (z = 1%Z <-> mat_before R C (bitat B) (bitat A)).
Proof.
  intros R C A B HA HB HC. apply okm_valid in HA, HB.
  destruct (wp_exists _ _ _ (wp_cmp R C A B (fun z => cmp_spec R C (bitat A) (bitat B) z) HA HB HC (fun z Q1 => Q1))) as (z & E & Hz).
  exists z. split; [exact E|].
  assert (NB : forall F G, mat_before R C F G -> ~ same R C F G).
  { intros F G (i & Hi & _ & c & Hc & H1 & H2 & _) H. rewrite H in H1 by assumption. congruence. }
  assert (NR : forall a b, row_before C a b -> row_before C b a -> False).
  { intros a b (c & Hc & H1 & H2 & H3) (c' & Hc' & H1' & H2' & H3').
    destruct (Nat.lt_trichotomy c c') as [L|[->|L]]; [rewrite H3 in H2' by assumption; congruence|congruence|rewrite H3' in H2 by assumption; congruence]. }
  assert (NM : forall F G, mat_before R C F G -> mat_before R C G F -> False).
  { intros F G (i & Hi & P & L) (i' & Hi' & P' & L').
    destruct (Nat.lt_trichotomy i i') as [H|[->|H]]; [|exact (NR _ _ L L')|].
    - destruct L as (c & Hc & H1 & H2 & _). rewrite (P' i c H Hc) in H2. congruence.
    - destruct L' as (c & Hc & H1 & H2 & _). rewrite (P i' c H Hc) in H2. congruence. }
  assert (SY : forall F G, same R C F G -> same R C G F) by (intros F G H i j Hi Hj; symmetry; apply H; assumption).
  destruct Hz as [[-> Hz]|[[-> Hz]|[-> Hz]]].
  - split; [left; reflexivity|]. split; [split; [discriminate|intros H; exfalso; exact (NB _ _ Hz H)]|].
    split; [split; [intros _; exact Hz|reflexivity]|]. split; [discriminate|intros H; exfalso; exact (NM _ _ Hz H)].
  - split; [right; right; reflexivity|]. split; [split; [discriminate|intros H; exfalso; exact (NB _ _ Hz (SY _ _ H))]|].
    split; [split; [discriminate|intros H; exfalso; exact (NM _ _ Hz H)]|]. split; [intros _; exact Hz|reflexivity].
  - split; [right; left; reflexivity|]. split; [split; [intros _; exact Hz|reflexivity]|].
    split; (split; [discriminate|]); intros H; exfalso; [exact (NB _ _ H Hz)|exact (NB _ _ H (SY _ _ Hz))].
Qed.
(** C90: of matrices of different sizes, the one with fewer rows, with as many rows the one with
    fewer columns comes first. *)
Lemma C90_cmp_sizes_main : forall RA CA RB CB A B, valid RA CA A -> valid RB CB B ->
  RA < RB \/ (RA = RB /\ CA < CB) -> mzd_cmp A B = Ok (-1)%Z /\ mzd_cmp B A = Ok 1%Z /\
  mzd_equal A B = Ok false /\ mzd_equal B A = Ok false.
Proof.
  intros RA CA RB CB A B (HA1 & HA2 & _) (HB1 & HB2 & _) H. unfold mzd_cmp, mzd_equal. rewrite HA1, HA2, HB1, HB2.
  destruct (Nat.ltb_spec RA RB), (Nat.ltb_spec RB RA), (Nat.ltb_spec CA CB), (Nat.ltb_spec CB CA),
    (Nat.eqb_spec RA RB), (Nat.eqb_spec RB RA), (Nat.eqb_spec CA CB), (Nat.eqb_spec CB CA); try lia; repeat split; reflexivity.
Qed.
(** C90: mzd_equal decides equality of two matrices of the same size, mzd_is_zero whether all entries
    are zero. *)
Lemma C90_equal_main : forall R C A B, valid R C A -> valid R C B -> 1 <= C ->
  exists b, mzd_equal A B = Ok b /\ (b = true <-> same R C (bitat A) (bitat B)).
Proof.
  intros R C A B HA HB HC. apply okm_valid in HA, HB.
  exact (wp_exists _ _ _ (wp_equal R C A B (fun b => b = true <-> same R C (bitat A) (bitat B)) HA HB HC (fun b H => H))).
Qed.
Lemma C90_is_zero_main : forall R C A, valid R C A -> 1 <= C ->
  exists b, mzd_is_zero A = Ok b /\ (b = true <-> forall i j, i < R -> j < C -> bitat A i j = false).
Proof.
  intros R C A HA HC. apply okm_valid in HA.
  exact (wp_exists _ _ _ (wp_is_zero R C A (fun b => b = true <-> forall i j, i < R -> j < C -> bitat A i j = false) HA HC (fun b H => H))).
Qed.
Example C90_ex_main : valid 2 65 (mkmzd 2 65 [[3; 1]; [4; 0]]%N) /\ valid 2 65 (mkmzd 2 65 [[3; 1]; [2; 1]]%N) /\
  mzd_cmp (mkmzd 2 65 [[3; 1]; [4; 0]]%N) (mkmzd 2 65 [[3; 1]; [2; 1]]%N) = Ok (-1)%Z /\
  mzd_equal (mkmzd 2 65 [[3; 1]; [4; 0]]%N) (mkmzd 2 65 [[3; 1]; [2; 1]]%N) = Ok false /\
  mzd_equal (mkmzd 2 65 [[3; 1]; [4; 0]]%N) (mkmzd 2 65 [[3; 1]; [4; 0]]%N) = Ok true /\
  mzd_is_zero (mkmzd 2 65 [[0; 0]; [0; 1]]%N) = Ok false /\ mzd_is_zero (mkmzd 2 65 [[0; 0]; [0; 0]]%N) = Ok true.
Proof. split; [apply validb_ok; vm_compute; reflexivity|]. split; [apply validb_ok; vm_compute; reflexivity|]. repeat split; vm_compute; reflexivity. Qed.

(** C91: mzd_invert_naive with the identity as third argument: for every invertible matrix the result
    is its inverse.  NULL is never returned: for a singular matrix the result is an invertible V
    such that V A is in reduced row echelon form, not an inverse. *)
Lemma C91_invert_naive_main : forall n A I, valid n n A -> valid n n I -> 1 <= n -> feq n (bitat I) fid ->
  exists B, mzd_invert_naive A I = Ok (Some B) /\ valid n n B /\ (invertible n (bitat A) -> inverse_of n (bitat A) (bitat B)) /\
    invertible n (bitat B) /\ exists r, rref n n (fmul n (bitat B) (bitat A)) r.
Proof.
  intros n A I HA HI Hn HE. apply okm_valid in HA, HI.
  destruct (wp_exists _ _ _ (wp_invert_naive n A I HA HI Hn HE)) as (o & E & B & -> & H1 & H2 & H3 & H4).
  exists B. split; [exact E|]. split; [apply okm_valid; exact H1|]. split; [exact H4|]. split; [exact H2|exact H3].
Qed.
Example C91_ex_main : valid 3 3 (mkmzd 3 3 [[6]; [3]; [2]]%N) /\ feq 3 (bitat (mkmzd 3 3 [[1]; [2]; [4]]%N)) fid /\
  mzd_invert_naive (mkmzd 3 3 [[6]; [3]; [2]]%N) (mkmzd 3 3 [[1]; [2]; [4]]%N) = Ok (Some (mkmzd 3 3 [[6]; [4]; [5]]%N)).
Proof.
  split; [apply validb_ok; vm_compute; reflexivity|]. split; [|vm_compute; reflexivity].
  intros i j Hi Hj. destruct i as [|[|[|]]], j as [|[|[|]]]; try lia; reflexivity.
Qed.
(** C91: the return value does not tell singular matrices: the 2 x 2 matrix of ones gets a result that
    is not an inverse. *)
Lemma C91_singular_refuted_main : exists A I B, valid 2 2 A /\ valid 2 2 I /\ feq 2 (bitat I) fid /\
  mzd_invert_naive A I = Ok (Some B) /\ ~ inverse_of 2 (bitat A) (bitat B).
Proof.
  exists (mkmzd 2 2 [[3]; [3]]%N), (mkmzd 2 2 [[1]; [2]]%N), (mkmzd 2 2 [[2]; [3]]%N).
  split; [apply validb_ok; vm_compute; reflexivity|]. split; [apply validb_ok; vm_compute; reflexivity|].
  split; [intros i j Hi Hj; destruct i as [|[|]], j as [|[|]]; try lia; reflexivity|].
  split; [vm_compute; reflexivity|]. intros [H _]. specialize (H 1 1 ltac:(lia) ltac:(lia)). vm_compute in H. discriminate.
Qed.
