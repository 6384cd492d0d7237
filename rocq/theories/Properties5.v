(** Generated by tools/gen_props.py from Main5.v: statements of the properties.
    Every theorem is closed by [exact]; its assumptions are printed beneath it. *)
From Coq Require Import Arith NArith List Bool Lia.
From Verif Require Import Base Tables Model Spec LinAlg Mem Cons Rand Mul Elim Qpr Check ModelGen SpecGen Gen GenBad Main5.
Import ListNotations.

(** C44: reverse Gaussian elimination; the only other outcome is the overflow of the counter
    randseed, which the test program declares as int. *)
Theorem C44_reverse_gauss : forall w m s, shapeM w m -> w_seed s <> (2 ^ 31 - 1)%N ->
  exists m' s', InvT_rge w m s = Ok (m', s') /\ wfM w m' /\ invertible (dim w) (mbit w m').
Proof. exact C44_reverse_gauss_main. Qed.
Print Assumptions C44_reverse_gauss.

Theorem C44_reverse_gauss_overflow_refuted : forall w, exists m s, shapeM w m /\ InvT_rge w m s = UB.
Proof. exact C44_reverse_gauss_overflow_refuted_main. Qed.
Print Assumptions C44_reverse_gauss_overflow_refuted.

Example C44_ex : exists s, InvT_rge W4 (fresh_m W4) (mkworld 0 0 0 (fun _ => 0%N) 0)
  = Ok ([[1]; [10]; [14]; [7]]%N, s).
Proof. exact C44_ex_main. Qed.

(** C44: rejection.  Whatever is in the uninitialised matrix at the beginning: if the loop
    ends, the result is invertible and it is the first invertible one among the matrices
    drawn; if it has not ended after [fuel] further draws then none of them is invertible. *)
Theorem C44_rejection : forall e w fuel t0 m s, typedM w t0 -> shapeM w m ->
  exists r, InvT_wbge e w fuel t0 m s = Ok r /\
  match r with
  | Some (m', s') => wfM w m' /\ invertible (dim w) (mbit w m') /\
      exists k, k <= fuel /\ nth_draw e w k t0 s = Ok (m', s') /\
      (forall q x y, q < k -> nth_draw e w q t0 s = Ok (x, y) -> ~ invertible (dim w) (mbit w x))
  | None => forall q, q <= fuel -> exists x y, nth_draw e w q t0 s = Ok (x, y) /\
      ~ invertible (dim w) (mbit w x)
  end.
Proof. exact C44_rejection_main. Qed.
Print Assumptions C44_rejection.

(** C44: MatrixpairM* returns a matrix and its inverse. *)
Theorem C44_rejection_pair : forall e w fuel t0 m v s, typedM w t0 -> shapeM w m -> shapeM w v ->
  exists r, Matrixpair e w fuel t0 m v s = Ok r /\
  match r with
  | Some (m', v', s') => wfM w m' /\ wfM w v' /\ inverse_of (dim w) (mbit w m') (mbit w v') /\
      InvT_wbge e w fuel t0 m s = Ok (Some (m', s'))
  | None => InvT_wbge e w fuel t0 m s = Ok None
  end.
Proof. exact C44_rejection_pair_main. Qed.
Print Assumptions C44_rejection_pair.

(** The loop has no bound: there are sequences of clock readings on which it never ends. *)
Theorem C44_rejection_ends_refuted : forall e w, dim w <= 32 -> exists s,
  forall fuel t0 m, typedM w t0 -> shapeM w m -> InvT_wbge e w fuel t0 m s = Ok None.
Proof. exact C44_rejection_ends_refuted_main. Qed.
Print Assumptions C44_rejection_ends_refuted.

Example C44_ex2 : exists s, InvT_wbge LE W4 9 (fresh_m W4) (fresh_m W4) (mkworld 0 0 0 (fun _ => 1%N) 0)
  = Ok (Some ([[1]; [14]; [11]; [2]]%N, s)).
Proof. exact C44_ex2_main. Qed.

(** C45 for one word to a row: nothing is read before it is written. *)
Theorem C45_small : forall e w m s, nw w = 1 -> shapeM w m ->
  ((w_seed s < 2 ^ 31 - 3)%N \/ (2 ^ 31 <= w_seed s < 2 ^ 32)%N) ->
  exists m' s', InvT_rlud e w false (unwritten w) (unwritten w) m s = Ok (m', s') /\
    wfM w m' /\ invertible (dim w) (mbit w m').
Proof. exact C45_small_main. Qed.
Print Assumptions C45_small.

(** C45 for all widths, if uninitialised words are read as some (arbitrary) words and M[i][4]
    of a 256-bit matrix as the first word of the next row: the result is still invertible. *)
Theorem C45_flat : forall e w g1 g2 m s, wfM w g1 -> wfM w g2 -> shapeM w m ->
  ((w_seed s < 2 ^ 31 - 3)%N \/ (2 ^ 31 <= w_seed s < 2 ^ 32)%N) ->
  exists m' s', InvT_rlud e w true (holding w g1) (holding w g2) m s = Ok (m', s') /\
    wfM w m' /\ invertible (dim w) (mbit w m').
Proof. exact C45_flat_main. Qed.
Print Assumptions C45_flat.

(** C45 is false for 128 and 256 bits: uninitialised words are read, ... *)
Theorem C45_uninitialised_refuted : forall e w flat c2 m, nw w <> 1 -> exists s,
  InvT_rlud e w flat (unwritten w) c2 m s = UB.
Proof. exact C45_uninitialised_refuted_main. Qed.
Print Assumptions C45_uninitialised_refuted.

(** ... the result depends on them: two runs that differ only in one uninitialised word that
    is read never give the same matrix, ... *)
Theorem C45_memory_dependence : forall e w flat g1 g1' g2 m s i c,
  wfM w g1 -> wfM w g1' -> wfM w g2 -> shapeM w m -> (flat = true \/ w <> W256) ->
  i < dim w -> c < i / wb w -> word g1 i c <> word g1' i c ->
  forall r r', InvT_rlud e w flat (holding w g1) (holding w g2) m s = Ok r ->
  InvT_rlud e w flat (holding w g1') (holding w g2) m s = Ok r' -> fst r <> fst r'.
Proof. exact C45_memory_dependence_main. Qed.
Print Assumptions C45_memory_dependence.

Example C45_ex2 : wfM W128 (sample W128) /\ wfM W128 (rank1 W128) /\ 0 < 64 / wb W128 /\
  word (sample W128) 64 0 <> word (rank1 W128) 64 0.
Proof. exact C45_ex2_main. Qed.

(** ... and for 256 bits M[i][4] is accessed although the row has four words. *)
Theorem C45_out_of_row_refuted : forall e c1 c2 m, exists s,
  InvT_rlud e W256 false c1 c2 m s = UB.
Proof. exact C45_out_of_row_refuted_main. Qed.
Print Assumptions C45_out_of_row_refuted.

Example C45_ex : exists s, InvT_rlud LE W4 false (unwritten W4) (unwritten W4) (fresh_m W4)
  (mkworld 0 0 0 (fun _ => 0%N) 0) = Ok ([[12]; [1]; [10]; [3]]%N, s).
Proof. exact C45_ex_main. Qed.
