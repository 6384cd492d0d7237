(** Final form of the properties C60 to C62 (LowMC method).  tools/gen_props.py copies the
    statements (names without the suffix _main) to Properties10.v. *)
From Coq Require Import Arith NArith List Bool Lia.
From Verif Require Import Base Tables Model Spec LinAlg Mem Cons Elim Check ModelLowMC SpecLowMC LowMC LowMC2 LowMC3.
Import ListNotations.

Lemma rand_last : forall st n, st80 st -> 0 < n -> exists b, nth_call (n - 1) st = Ok (b, cst st n).
Proof.
  intros st n Hst Hn. exists (cbit st (n - 1)). rewrite nth_call_eq by auto.
  replace (S (n - 1)) with n by lia. reflexivity.
Qed.
Lemma word_pos : forall w, 0 < dim w * wb w * nw w.
Proof. destruct w; cbn [dim wb nw]; lia. Qed.
Lemma typed_wf : forall w m, w <> W4 -> typedM w m -> wfM w m.
Proof. intros w m Hw H. destruct w; try exact H. contradiction. Qed.

(** C60: every call of getrandbit returns, after at most 80 rounds of its loop, whatever the
    80-bit state; it never leaves the state zero, which the first lines would take for the
    mark "not yet initialised" *)
Lemma C60_terminates_main : forall fuel st, (st < 2 ^ 80)%N -> 80 <= fuel ->
  exists b st', getrandbit fuel st = Some (b, st') /\ getrandbit 80 st = Some (b, st') /\
    (0 < st' < 2 ^ 80)%N.
Proof.
  intros fuel st H Hf. destruct (getrandbit_total fuel st H Hf) as (b & st' & H1 & H2 & H3 & H4).
  exists b, st'. split; [exact H1|]. split; [exact H2|]. split; [lia|exact H3].
Qed.

(** C60: from the start of the program the n-th call returns bit 240 + 2 p(n) + 1 of the Grain
    LFSR sequence started with all ones, where p(0) < p(1) < ... are all the numbers k of pairs
    (s(240+2k), s(240+2k+1)) whose first bit is 1 *)
Lemma C60_stream_main : forall s, grain s -> exists (p : nat -> nat) (st : nat -> N),
  p 0 < 80 /\ (forall n, p n < p (S n) <= p n + 80) /\
  (forall k, s (240 + 2 * k) = true <-> exists n, p n = k) /\
  st 0 = 0%N /\
  (forall n, getrandbit 80 (st n) = Some (s (240 + 2 * p n + 1), st (S n)) /\ st (S n) <> 0%N).
Proof. exact stream. Qed.

(** the sequence exists; the bound 80 is sharp; the first call of the program *)
Example C60_ex_main : (exists s, grain s) /\
  getrandbit 79 0xe2a20230020b268088a5 = None /\
  (exists st', getrandbit 80 0xe2a20230020b268088a5 = Some (true, st')) /\
  (exists st', getrandbit 80 0 = Some (false, st') /\ st' <> 0%N /\ getrandbit 80 st' <> None).
Proof.
  split; [exists (seq_of (2 ^ 80 - 1)); exact grain_exists|].
  split; [vm_compute; reflexivity|].
  split; [eexists; vm_compute; reflexivity|].
  eexists; split; [vm_compute; reflexivity|]. split; [discriminate|]. vm_compute. discriminate.
Qed.

(** C61: RandbitMat adds to the bit in row i and column j the result of call number
    (i * wb + j mod wb) * nw + j / wb of getrandbit, and changes no other bit of the elements *)
Lemma C61_matrix_main : forall w m st, typedM w m -> (st < 2 ^ 80)%N ->
  exists m' st', RandbitMat w m st = Ok (m', st') /\ typedM w m' /\
  (exists b, nth_call (dim w * wb w * nw w - 1) st = Ok (b, st')) /\
  (forall i j, i < dim w -> j < dim w ->
     exists b s, nth_call ((i * wb w + j mod wb w) * nw w + j / wb w) st = Ok (b, s) /\
       mbit w m' i j = xorb (mbit w m i j) b) /\
  (forall i k p, i < dim w -> k < nw w -> wb w <= p ->
     N.testbit (word m' i k) (N.of_nat p) = N.testbit (word m i k) (N.of_nat p)).
Proof.
  intros w m st Hm Hst.
  destruct (RandbitMat_mat_of w (cb w) m st ltac:(destruct w; cbn; lia) Hm Hst) as (m' & st' & E & T & S).
  destruct (RandbitMat_spec w m st (typedM_shape _ _ Hm) Hst) as (m'' & E' & _ & HB).
  rewrite E in E'. injection E' as <- ->. exists m', (cst st (dim w * wb w * nw w)).
  split; [exact E|]. split; [exact T|]. split; [apply rand_last; [exact Hst|apply word_pos]|].
  pose proof (wb_pos w) as Pw. split.
  - intros i j Hi Hj. eexists. eexists. split; [apply nth_call_eq; exact Hst|].
    assert (Hk : j / wb w < nw w) by (apply Nat.div_lt_upper_bound; [lia|]; rewrite <- dim_eq; lia).
    pose proof (Nat.mod_upper_bound j (wb w) ltac:(lia)) as Hr.
    unfold mbit. rewrite HB by auto. f_equal.
    replace (wb w - 1 - j mod wb w <? wb w) with true by (symmetry; apply Nat.ltb_lt; lia).
    f_equal. f_equal. f_equal. lia.
  - intros i k p Hi Hk Hp. rewrite HB by auto.
    replace (p <? wb w) with false by (symmetry; apply Nat.ltb_ge; lia). apply xorb_false_r.
Qed.

(** C61: InvTMat (widths 8 to 256: whatever the uninitialised local holds) returns the first
    invertible one among the matrices temp + r(0), temp + r(0) + r(1), ...; and invs then
    computes its inverse *)
Lemma C61_reject_main : forall w fuel t0 m v st, w <> W4 -> typedM w t0 -> typedM w m -> typedM w v ->
  (st < 2 ^ 80)%N ->
  exists r, InvT_lowmc w fuel t0 m st = Ok r /\
  match r with
  | Some (m', st') => exists k, k <= fuel /\ nth_mat w k t0 st = Ok (m', st') /\ wfM w m' /\
      invertible (dim w) (mbit w m') /\
      (forall q x y, q < k -> nth_mat w q t0 st = Ok (x, y) -> ~ invertible (dim w) (mbit w x)) /\
      exists v', invs w m' v = Ok v' /\ inverse_of (dim w) (mbit w m') (mbit w v')
  | None => forall q x y, q <= fuel -> nth_mat w q t0 st = Ok (x, y) ->
      ~ invertible (dim w) (mbit w x)
  end.
Proof.
  intros w fuel t0 m v st Hw Ht Hm Hv Hst.
  destruct (InvT_lowmc_spec w fuel t0 m st (typed_wf w t0 Hw Ht) (typedM_shape _ _ Hm) Hst) as (r & E & Hr).
  exists r. split; [exact E|]. destruct r as [[m' st']|]; [|exact Hr].
  destruct Hr as (k & H1 & H2 & H3 & H4 & H5). exists k. split; [exact H1|]. split; [exact H2|].
  split; [exact H3|]. split; [exact H4|]. split; [exact H5|].
  destruct (wp_exists _ _ _ (invs_wp w m' v H3 (typedM_shape _ _ Hv))) as (v' & Ev & _ & _ & HI).
  exists v'. auto.
Qed.

(** the first 8-bit matrix of the program when the stack holds zeros *)
Example C61_ex_main : exists m' st', InvT_lowmc W8 20 (zeros W8) (zeros W8) 0 = Ok (Some (m', st')) /\
  m' <> mk W8 (id_word W8) /\ typedM W8 (zeros W8).
Proof.
  eexists. eexists. split; [vm_compute; reflexivity|]. split; [vm_compute; discriminate|].
  apply wfM_typed. apply wf_zero.
Qed.

(** C62: isinvertM4 on bytes whose upper halves are not zero: with L the lower and H the upper
    halves it returns 1 exactly if L is invertible and the last row of L^-1 H is zero *)
Lemma C62_isinvert_main : forall m, typedM W4 m -> exists r, isinvert W4 m = Ok r /\
  (r = 0%N \/ r = 1%N) /\
  (r = 1%N <-> exists B, inverse_of 4 (mbit W4 m) B /\ forall c, c < 4 -> fmul 4 B (hbit m) 3 c = false).
Proof.
  intros m Hm. destruct (wp_exists _ _ _ (isinvert4 m Hm)) as (r & E & [[-> G]|[-> G]]);
    eexists; (split; [exact E|]); (split; [auto|]); split; auto; [discriminate|].
  intros G'. destruct (G G').
Qed.

(** C62: InvTMatM4 never returns when the upper halves of the uninitialised bytes are linearly
    independent *)
Lemma C62_stuck_main : forall fuel t0 m st, typedM W4 t0 -> typedM W4 m -> (st < 2 ^ 80)%N ->
  invertible 4 (hbit t0) -> InvT_lowmc W4 fuel t0 m st = Ok None.
Proof. intros fuel t0 m st Ht Hm. apply InvT_lowmc4_stuck; auto using typedM_shape. Qed.

(** C62: when it returns, the lower halves of the result are an invertible matrix, the first
    one of the series that isinvertM4 accepts; the upper halves are those of the uninitialised
    bytes *)
Lemma C62_result_main : forall fuel t0 m st m' st', typedM W4 t0 -> typedM W4 m -> (st < 2 ^ 80)%N ->
  InvT_lowmc W4 fuel t0 m st = Ok (Some (m', st')) ->
  typedM W4 m' /\ invertible 4 (mbit W4 m') /\ feq 4 (hbit m') (hbit t0) /\
  exists k, k <= fuel /\ nth_mat W4 k t0 st = Ok (m', st') /\
    forall q x y, q < k -> nth_mat W4 q t0 st = Ok (x, y) -> isinvert W4 x = Ok 0%N.
Proof.
  intros fuel t0 m st m' st' Ht Hm Hst E.
  destruct (InvT_lowmc4_spec fuel t0 m st Ht (typedM_shape _ _ Hm) Hst) as (r & E' & Hr).
  rewrite E in E'. injection E' as <-. destruct Hr as (k & H1 & H2 & H3 & H4 & H5 & H6).
  split; [exact H3|]. split; [apply (good4_high m' H5)|]. split; [exact H4|].
  exists k. split; [exact H1|]. split; [exact H2|]. intros q x y Hq Eq.
  assert (T : typedM W4 x).
  { clear - Ht Hst Eq. revert t0 st Ht Hst Eq. induction q as [|q IH]; intros t0 st Ht Hst Eq;
      destruct (step_typed4 (hbit t0) t0 st (conj Ht (feq_refl 4 _)) Hst) as (t1 & s1 & E1 & (T1 & _) & S1);
      cbn [nth_mat] in Eq; rewrite E1 in Eq; cbn [bind fst snd] in Eq.
    - injection Eq as <- _. exact T1.
    - apply (IH t1 s1 T1 S1 Eq). }
  destruct (wp_exists _ _ _ (isinvert4 x T)) as (r & -> & [[-> G]|[-> _]]); [|reflexivity].
  destruct (H6 q x y Hq Eq G).
Qed.

(** memory on which the program hangs, memory with garbage on which it does not, and clean
    memory *)
Example C62_ex_main :
  (let t0 := [[0x10]; [0x20]; [0x40]; [0x80]]%N in typedM W4 t0 /\ invertible 4 (hbit t0)) /\
  (exists m' st', InvT_lowmc W4 20 [[0x10]; [0]; [0]; [0]]%N (zeros W4) 0 = Ok (Some (m', st')) /\
     ~ wfM W4 m') /\
  (exists m' st', InvT_lowmc W4 20 (zeros W4) (zeros W4) 0 = Ok (Some (m', st'))).
Proof.
  split; [|split].
  - cbv zeta. split.
    + split; [reflexivity|]. repeat constructor.
    + exists (fun i j => Nat.eqb (i + j) 3). split; intros i j Hi Hj;
        do 4 (destruct i as [|i]; [do 4 (destruct j as [|j]; [vm_compute; reflexivity|]); lia|]); lia.
  - eexists. eexists. split; [vm_compute; reflexivity|]. intros H. apply mat_of_iff in H.
    destruct H as [_ H]. specialize (H 0 0). vm_compute in H. discriminate H.
  - eexists. eexists. vm_compute. reflexivity.
Qed.
