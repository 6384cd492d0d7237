(** Final form of the properties C44 and C45.  tools/gen_props.py copies the statements
    (names without the suffix _main) to Properties5.v. *)
From Coq Require Import Arith NArith List Bool Lia.
From Verif Require Import Base Tables Model Spec LinAlg Mem Cons Rand Mul Elim Qpr Check ModelGen SpecGen Gen GenBad.
Import ListNotations.

(** C44: reverse Gaussian elimination; the only other outcome is the overflow of the counter
    randseed, which the test program declares as int. *)
Lemma C44_reverse_gauss_main : forall w m s, shapeM w m -> w_seed s <> (2 ^ 31 - 1)%N ->
  exists m' s', InvT_rge w m s = Ok (m', s') /\ wfM w m' /\ invertible (dim w) (mbit w m').
Proof.
  intros w m s Hm Hs. destruct (wp_exists _ _ _ (InvT_rge_wp w m s Hm Hs)) as ([m' s'] & E & H).
  exists m', s'. auto.
Qed.
Lemma C44_reverse_gauss_overflow_refuted_main : forall w, exists m s, shapeM w m /\ InvT_rge w m s = UB.
Proof.
  intros w. exists (fresh_m w), (mkworld (2 ^ 31 - 1) 0 0 (fun _ => 0%N) 0).
  split; [apply shape_fresh_m|]. unfold InvT_rge. rewrite identityM_ok by apply shape_fresh_m. reflexivity.
Qed.
Example C44_ex_main : exists s, InvT_rge W4 (fresh_m W4) (mkworld 0 0 0 (fun _ => 0%N) 0)
  = Ok ([[1]; [10]; [14]; [7]]%N, s).
Proof. eexists. vm_compute. reflexivity. Qed.

(** C44: rejection.  Whatever is in the uninitialised matrix at the beginning: if the loop
    ends, the result is invertible and it is the first invertible one among the matrices
    drawn; if it has not ended after [fuel] further draws then none of them is invertible. *)
Lemma C44_rejection_main : forall e w fuel t0 m s, typedM w t0 -> shapeM w m ->
  exists r, InvT_wbge e w fuel t0 m s = Ok r /\
  match r with
  | Some (m', s') => wfM w m' /\ invertible (dim w) (mbit w m') /\
      exists k, k <= fuel /\ nth_draw e w k t0 s = Ok (m', s') /\
      (forall q x y, q < k -> nth_draw e w q t0 s = Ok (x, y) -> ~ invertible (dim w) (mbit w x))
  | None => forall q, q <= fuel -> exists x y, nth_draw e w q t0 s = Ok (x, y) /\
      ~ invertible (dim w) (mbit w x)
  end.
Proof.
  intros e w fuel t0 m s Ht Hm. destruct (InvT_wbge_spec e w fuel t0 m s Ht Hm) as (r & E & H).
  exists r. split; [exact E|]. destruct r as [[m' s']|].
  - destruct H as (k & H1 & H2 & H3 & H4 & H5). split; auto. split; auto. exists k. auto.
  - intros q Hq.
    assert (D : forall k, exists x y, nth_draw e w k t0 s = Ok (x, y) /\ wfM w x).
    { induction k as [|k (x & y & Ek & Wk)].
      - cbn [nth_draw]. apply randM_wf. exact Ht.
      - cbn [nth_draw]. rewrite Ek. cbn [bind]. apply randM_wf. apply wfM_typed. exact Wk. }
    destruct (D q) as (x & y & Eq & _). exists x, y. split; [exact Eq|]. exact (H q x y Hq Eq).
Qed.
(** C44: MatrixpairM* returns a matrix and its inverse. *)
Lemma C44_rejection_pair_main : forall e w fuel t0 m v s, typedM w t0 -> shapeM w m -> shapeM w v ->
  exists r, Matrixpair e w fuel t0 m v s = Ok r /\
  match r with
  | Some (m', v', s') => wfM w m' /\ wfM w v' /\ inverse_of (dim w) (mbit w m') (mbit w v') /\
      InvT_wbge e w fuel t0 m s = Ok (Some (m', s'))
  | None => InvT_wbge e w fuel t0 m s = Ok None
  end.
Proof.
  intros e w fuel t0 m v s Ht Hm Hv. unfold Matrixpair.
  destruct (InvT_wbge_spec e w fuel t0 m s Ht Hm) as (r & E & H). rewrite E. cbn [bind].
  destruct r as [[m' s']|]; [|exists None; auto].
  destruct H as (k & _ & _ & Wm & HI & _).
  destruct (wp_exists _ _ _ (invs_wp w m' v Wm Hv)) as (v' & Ev & Wv & _ & Hi).
  rewrite Ev. cbn [bind]. eexists. split; [reflexivity|]. split; [exact Wm|]. split; [exact Wv|]. split; [exact (Hi HI)|reflexivity].
Qed.
(** The loop has no bound: there are sequences of clock readings on which it never ends. *)
Lemma C44_rejection_ends_refuted_main : forall e w, dim w <= 32 -> exists s,
  forall fuel t0 m, typedM w t0 -> shapeM w m -> InvT_wbge e w fuel t0 m s = Ok None.
Proof.
  intros e w Hw.
  exists (mkworld 0 0 0 (stuck_clock (match w with W4 | W32 => 1 | _ => 0 end)) 0).
  intros fuel t0 m Ht Hm.
  apply InvT_wbge_stuck with (c := (match w with W4 | W32 => 1 | _ => 0 end)%N); auto.
  - destruct w; reflexivity.
  - destruct e, w; try (exfalso; revert Hw; clear; cbn; lia); eexists; eexists; (split; [vm_compute; reflexivity|vm_compute; reflexivity]).
Qed.
Example C44_ex2_main : exists s, InvT_wbge LE W4 9 (fresh_m W4) (fresh_m W4) (mkworld 0 0 0 (fun _ => 1%N) 0)
  = Ok (Some ([[1]; [14]; [11]; [2]]%N, s)).
Proof. eexists. vm_compute. reflexivity. Qed.

(** C45 for one word to a row: nothing is read before it is written. *)
Lemma C45_small_main : forall e w m s, nw w = 1 -> shapeM w m ->
  ((w_seed s < 2 ^ 31 - 3)%N \/ (2 ^ 31 <= w_seed s < 2 ^ 32)%N) ->
  exists m' s', InvT_rlud e w false (unwritten w) (unwritten w) m s = Ok (m', s') /\
    wfM w m' /\ invertible (dim w) (mbit w m').
Proof.
  intros e w m s Hw Hm Hs.
  assert (C : cshape w (unwritten w)).
  { unfold cshape, unwritten. rewrite repeat_length. split; auto. intros i Hi.
    rewrite (nth_indep _ [] (repeat None (nw w))) by (rewrite repeat_length; auto).
    rewrite nth_repeat. apply repeat_length. }
  destruct (wp_exists _ _ _ (InvT_rlud_wp e w false (unwritten w) (unwritten w) m s Hm C C
    ltac:(right; intros ->; discriminate Hw) ltac:(auto) Hs)) as ([m' s'] & E & H).
  exists m', s'. auto.
Qed.
(** C45 for all widths, if uninitialised words are read as some (arbitrary) words and M[i][4]
    of a 256-bit matrix as the first word of the next row: the result is still invertible. *)
Lemma C45_flat_main : forall e w g1 g2 m s, wfM w g1 -> wfM w g2 -> shapeM w m ->
  ((w_seed s < 2 ^ 31 - 3)%N \/ (2 ^ 31 <= w_seed s < 2 ^ 32)%N) ->
  exists m' s', InvT_rlud e w true (holding w g1) (holding w g2) m s = Ok (m', s') /\
    wfM w m' /\ invertible (dim w) (mbit w m').
Proof.
  intros e w g1 g2 m s H1 H2 Hm Hs.
  destruct (holding_ok w g1 H1) as [C1 F1], (holding_ok w g2 H2) as [C2 F2].
  destruct (wp_exists _ _ _ (InvT_rlud_wp e w true _ _ m s Hm C1 C2 ltac:(auto) ltac:(auto) Hs))
    as ([m' s'] & E & H).
  exists m', s'. auto.
Qed.
(** C45 is false for 128 and 256 bits: uninitialised words are read, ... *)
Lemma C45_uninitialised_refuted_main : forall e w flat c2 m, nw w <> 1 -> exists s,
  InvT_rlud e w flat (unwritten w) c2 m s = UB.
Proof.
  intros e w flat c2 m Hw. exists (mkworld 0 0 0 (fun _ => 4%N) 0). unfold InvT_rlud.
  rewrite reseed_int_ok by discriminate. cbn [bind].
  rewrite low_ub; [reflexivity| | |].
  - destruct w; auto; exfalso; apply Hw; reflexivity.
  - destruct w; try (exfalso; apply Hw; reflexivity); reflexivity.
  - unfold odd_draw. rewrite rnd_out by (vm_compute; reflexivity). vm_compute. reflexivity.
Qed.
(** ... the result depends on them: two runs that differ only in one uninitialised word that
    is read never give the same matrix, ... *)
Lemma C45_memory_dependence_main : forall e w flat g1 g1' g2 m s i c,
  wfM w g1 -> wfM w g1' -> wfM w g2 -> shapeM w m -> (flat = true \/ w <> W256) ->
  i < dim w -> c < i / wb w -> word g1 i c <> word g1' i c ->
  forall r r', InvT_rlud e w flat (holding w g1) (holding w g2) m s = Ok r ->
  InvT_rlud e w flat (holding w g1') (holding w g2) m s = Ok r' -> fst r <> fst r'.
Proof.
  intros e w flat g1 g1' g2 m s i c H1 H1' H2 Hm Hf Hi Hc Hne.
  destruct (holding_ok w g1 H1) as [C1 F1], (holding_ok w g1' H1') as [C1' F1'], (holding_ok w g2 H2) as [C2 F2].
  apply (rlud_depends e w flat _ _ _ m s (fun i c => N.lxor (word g1 i c) (word g1' i c)) i c); auto.
  - split; auto. split; auto. intros r k Hr Hk. exists (word g1 r k), (word g1' r k).
    split; [apply holding_cell; auto|]. split; [apply holding_cell; auto|]. auto.
  - intros E. apply N.lxor_eq in E. auto.
Qed.
Example C45_ex2_main : wfM W128 (sample W128) /\ wfM W128 (rank1 W128) /\ 0 < 64 / wb W128 /\
  word (sample W128) 64 0 <> word (rank1 W128) 64 0.
Proof.
  split; [apply wf_sample|]. split; [apply wf_rank1|]. split; [cbn; lia|]. vm_compute. discriminate.
Qed.
(** ... and for 256 bits M[i][4] is accessed although the row has four words. *)
Lemma C45_out_of_row_refuted_main : forall e c1 c2 m, exists s,
  InvT_rlud e W256 false c1 c2 m s = UB.
Proof.
  intros e c1 c2 m. exists (mkworld 0 0 0 (fun _ => 4%N) 0). unfold InvT_rlud.
  rewrite reseed_int_ok by discriminate. cbn [bind].
  destruct (low W256 false c1 (reseed (mkworld 0 0 0 (fun _ => 4%N) 0))) as [[c1' s1]|] eqn:E; auto.
  cbn [bind]. rewrite up_ub; [reflexivity|]. apply low_seed in E. destruct E as (E1 & E2 & E3).
  assert (R : reseed s1 = InitRandom 6 (mkworld 3 (w_idx s1) (w_off s1) (w_clk s1) (S (w_tick s1)))).
  { unfold reseed, time_null. cbn [w_seed w_clk w_tick]. rewrite E1, E2. reflexivity. }
  rewrite R. unfold odd_draw. rewrite rnd_out; vm_compute; reflexivity.
Qed.
Example C45_ex_main : exists s, InvT_rlud LE W4 false (unwritten W4) (unwritten W4) (fresh_m W4)
  (mkworld 0 0 0 (fun _ => 0%N) 0) = Ok ([[12]; [1]; [10]; [3]]%N, s).
Proof. eexists. vm_compute. reflexivity. Qed.
