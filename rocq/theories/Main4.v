(** Final form of the properties C34 - C36, C38 and C39.  tools/gen_props.py copies the statements
    (names without the suffix _main) to Properties4.v. *)
From Coq Require Import Arith NArith List Bool String Ascii Lia.
From Verif Require Import Base Tables Model Spec LinAlg Mem Cons Rand Mul Elim GenPair Affine Check
  ModelPrint SpecPrint Print ModelAlias Alias.
Import ListNotations.

(** C34: printbit draws the bits of the matrix (M4 ... M128 exist in C). *)
Lemma C34_printbit_main : forall w m, shapeM w m ->
  printbit w m = Ok (bit_picture (dim w) (mbit w m)).
Proof. exact printbit_picture. Qed.
Example C34_ex_main : shapeM W4 [[1]; [2]; [10]; [15]]%N /\
  printbit W4 [[1]; [2]; [10]; [15]]%N = Ok "0 0 0 1 
0 0 1 0 
1 0 1 0 
1 1 1 1 

"%string.
Proof. split; [repeat constructor|vm_compute; reflexivity]. Qed.

(** C35: reading the numbers of each line of the output of printM gives the rows back. *)
Lemma C35_printM_main : forall w m, shapeM w m ->
  exists s, printM w m = Ok s /\ readtext s = map (map Some) m.
Proof.
  intros w m H. exists (rows_text m). split; [apply printM_text; auto|].
  apply rows_read. destruct H as [_ H]. eapply Forall_impl; [|exact H].
  intros r Hr ->. pose proof (nw_pos w). simpl in Hr. lia.
Qed.
(** C35: the same for printV, which prints one line. *)
Lemma C35_printV_main : forall w v, shapeV w v ->
  exists s, printV w v = Ok s /\ readtext s = [map Some v].
Proof.
  intros w v H. exists (rows_text [v]). split; [apply printV_text; auto|].
  apply (rows_read [v]). constructor; auto.
  intros ->. unfold shapeV in H. pose proof (nw_pos w). simpl in H. lia.
Qed.
(** C35: hence equal outputs come from equal matrices, and equal vectors. *)
Lemma map_Some_inj : forall (a b : list N), map Some a = map Some b -> a = b.
Proof. induction a; destruct b; intros E; inversion E; f_equal; auto. Qed.
Lemma C35_injective_main :
  (forall w m m', shapeM w m -> shapeM w m' -> printM w m = printM w m' -> m = m') /\
  (forall w v v', shapeV w v -> shapeV w v' -> printV w v = printV w v' -> v = v').
Proof.
  split.
  - intros w m m' H H' E. destruct (C35_printM_main w m H) as (s & E1 & R1).
    destruct (C35_printM_main w m' H') as (s' & E2 & R2).
    rewrite E1, E2 in E. injection E as ->. rewrite R1 in R2. clear -R2. revert m' R2.
    induction m as [|r m IH]; destruct m' as [|r' m']; intros E; inversion E; auto.
    f_equal; auto. apply map_Some_inj; auto.
  - intros w m m' H H' E. destruct (C35_printV_main w m H) as (s & E1 & R1).
    destruct (C35_printV_main w m' H') as (s' & E2 & R2).
    rewrite E1, E2 in E. injection E as ->. rewrite R1 in R2. injection R2 as R2.
    apply map_Some_inj; auto.
Qed.
Example C35_ex_main : printV W128 [81985529216486895; 0]%N = Ok "0x123456789abcdef 0x0
"%string /\
  printM W4 [[1]; [2]; [10]; [15]]%N = Ok "0x1
0x2
0xa
0xf
"%string.
Proof. vm_compute. split; reflexivity. Qed.

(** C36: printU64 and printU128 are undefined for every argument. *)
Lemma C36_printU64_printU128_refuted_main :
  (forall n, printU64 n = UB) /\ (forall a b, printU128 [a; b] = UB).
Proof. split; reflexivity. Qed.
(** C36: the others print the number in hexadecimal on a line of its own. *)
Lemma C36_others_main :
  (forall n, exists s, printU8 n = Ok s /\ readtext s = [[Some n]]) /\
  (forall n, exists s, printU16 n = Ok s /\ readtext s = [[Some n]]) /\
  (forall n, exists s, printU32 n = Ok s /\ readtext s = [[Some n]]) /\
  (forall a b c d, exists s, printU256 [a; b; c; d] = Ok s /\
                             readtext s = [[Some a; Some b; Some c; Some d]]).
Proof.
  assert (H : forall n, exists s, printU8 n = Ok s /\ readtext s = [[Some n]]).
  { intros n. exact (C35_printV_main W8 [n] eq_refl). }
  split; [exact H|]. split; [exact H|]. split; [exact H|].
  intros a b c d. destruct (C35_printV_main W256 [a; b; c; d] eq_refl) as (s & E & R).
  exists s. split; auto. rewrite <- E. rewrite printV_text by reflexivity.
  unfold printU256, nl. cbn -[show].
  repeat match goal with |- context [show 16 ?x] => generalize (show 16 x); intro end.
  repeat (rewrite ?app_assoc_s; cbn [append]). reflexivity.
Qed.
Example C36_ex_main : printU32 3735928559 = Ok "0xdeadbeef
"%string.
Proof. vm_compute. reflexivity. Qed.

(** C38: genMatpair with one and the same buffer for both results stores the drawn matrix
    if it is invertible, and the identity otherwise. *)
Lemma C38_same_buffer_main : forall e w m s, shapeM w m ->
  exists a s1 m' s', randM e w (fresh_m w) (reseed s) = Ok (a, s1) /\
    genMatpair_same e w m s = Ok (m', s') /\ wfM w m' /\
    (invertible (dim w) (mbit w a) -> m' = a) /\
    (~ invertible (dim w) (mbit w a) -> feq (dim w) (mbit w m') fid).
Proof.
  intros e w m s H.
  destruct (wp_exists _ _ _ (genMatpair_same_wp e w m s H)) as ([m' s'] & E & H1 & H2 & H3).
  exists (drawn e w s). eexists. exists m', s'. split; [apply drawn_randM|].
  split; [exact E|]. cbn [fst] in *. auto.
Qed.

Definition same_witness (w : width) : world :=
  let n := (match w with W4 => 1 | W8 => 3 | W16 => 2 | W32 => 1 | W64 => 14 | W128 => 3
                       | W256 => 1 end)%N in mkworld 0 n n (fun _ => n) 0.
Definition same_check (w : width) : bool :=
  match randM LE w (fresh_m w) (reseed (same_witness w)) with
  | Ok (a, _) =>
      match isinvert w a with
      | Ok 1%N => existsb (fun j => xorb (fmul (dim w) (mbit w a) (mbit w a) 0 j) (fid 0 j)) [0; 1; 2]
      | _ => false
      end
  | UB => false
  end.
Lemma same_checked : forall w, same_check w = true.
Proof. destruct w; vm_compute; reflexivity. Qed.
Lemma same_not_involution : forall w m, shapeM w m -> exists m' s',
  genMatpair_same LE w m (same_witness w) = Ok (m', s') /\
  exists j, j < dim w /\ fmul (dim w) (mbit w m') (mbit w m') 0 j <> fid 0 j.
Proof.
  intros w m Hm. destruct (C38_same_buffer_main LE w m (same_witness w) Hm)
    as (a & s1 & m' & s' & Er & E & W & Hi & _).
  exists m', s'. split; auto. pose proof (same_checked w) as C. unfold same_check in C.
  rewrite Er in C. destruct (isinvert w a) as [[|[p|p|]]|] eqn:Ei; try discriminate C.
  assert (Wa : wfM w a) by (rewrite drawn_randM in Er; injection Er as <- _; apply wf_rand).
  rewrite (Hi (isinvert_1 w a Wa Ei)).
  apply existsb_exists in C. destruct C as (j & Hj & C). exists j. split.
  - pose proof (dim_pos w). assert (4 <= dim w) by (destruct w; simpl; lia).
    destruct Hj as [<-|[<-|[<-|[]]]]; lia.
  - intros Ej. rewrite Ej, xorb_nilpotent in C. discriminate.
Qed.
(** C38: for every width there is a generator state for which the result is not its own
    inverse, so that the call does not give an inverse pair. *)
Lemma C38_same_buffer_refuted_main : forall w, exists s m' s',
  genMatpair_same LE w (fresh_m w) s = Ok (m', s') /\
  ~ inverse_of (dim w) (mbit w m') (mbit w m').
Proof.
  intros w. destruct (same_not_involution w (fresh_m w) (shape_fresh_m w)) as (m' & s' & E & j & Hj & N).
  exists (same_witness w), m', s'. split; auto. intros [H _]. apply N. apply H; auto.
  pose proof (dim_pos w). lia.
Qed.
(** C38: likewise genaffinepair with aff == aff_inv does not give an involution. *)
Lemma C38_same_affine_refuted_main : forall w, exists s f s' x,
  genaffinepair_same LE w (mkaff (fresh_m w) (fresh_v w)) s = Ok (f, s') /\
  ~ veq (dim w) (vadd (fapp (dim w) (mbit w (amat f))
                            (vadd (fapp (dim w) (mbit w (amat f)) x) (vbit w (avec f))))
                      (vbit w (avec f))) x.
Proof.
  intros w. destruct (same_not_involution w (fresh_m w) (shape_fresh_m w)) as (m' & s' & E & j & Hj & N).
  destruct (C38_same_buffer_main LE w (fresh_m w) (same_witness w) (shape_fresh_m w))
    as (a & s1 & m2 & s2 & _ & E2 & W & _). rewrite E in E2. injection E2 as <- <-.
  unfold genaffinepair_same. exists (same_witness w).
  assert (Tv : typedV w (fresh_v w)).
  { split; [apply repeat_length|]. apply Forall_forall. intros y Hy. apply repeat_spec in Hy.
    subst y. apply N.lt_le_trans with 1%N; [reflexivity|]. change 1%N with (2 ^ 0)%N.
    apply N.pow_le_mono_r; [discriminate|apply N.le_0_l]. }
  cbn [amat avec]. rewrite E. cbn [bind].
  rewrite randV_ok by auto. cbn [bind].
  match goal with |- context [MatMulVec LE w m' ?c ?c] => set (cc := c) end.
  destruct (wp_exists _ _ _ (MatMulVec_wp LE w m' cc cc (wfM_typed _ _ W) (shape_mkv _ _) (shape_mkv _ _)))
    as (d & Ed & _). rewrite Ed. cbn [bind]. eexists. eexists.
  (* if both x = 0 and x = e_j were fixed, bit (0, j) of m' * m' would be that of the identity *)
  destruct (Bool.bool_dec (vadd (fapp (dim w) (mbit w m')
     (vadd (fapp (dim w) (mbit w m') (fun _ => false)) (vbit w d))) (vbit w d) 0) false) as [E0|E0].
  - exists (fun k => Nat.eqb k j). split; [reflexivity|]. cbn [amat avec]. intros H. apply N.
    assert (H0 : 0 < dim w) by (pose proof (dim_pos w); lia). specialize (H 0 H0). cbn beta in H.
    assert (L : forall x, veq (dim w) (fapp (dim w) (mbit w m') (vadd (fapp (dim w) (mbit w m') x) (vbit w d)))
        (vadd (fapp (dim w) (fmul (dim w) (mbit w m') (mbit w m')) x) (fapp (dim w) (mbit w m') (vbit w d)))).
    { intros x. rewrite fapp_vadd, fmul_fapp. reflexivity. }
    unfold vadd at 1 in H. rewrite (L _ 0 H0) in H. unfold vadd at 1 in E0. rewrite (L _ 0 H0) in E0.
    unfold vadd in H, E0.
    assert (Z : fapp (dim w) (fmul (dim w) (mbit w m') (mbit w m')) (fun _ => false) 0 = false).
    { unfold fapp. generalize (fmul (dim w) (mbit w m') (mbit w m') 0). intros g. clear.
      induction (dim w) as [|n IHn]; simpl; auto. rewrite IHn, andb_false_r. reflexivity. }
    assert (U : fapp (dim w) (fmul (dim w) (mbit w m') (mbit w m')) (fun k => Nat.eqb k j) 0
                = fmul (dim w) (mbit w m') (mbit w m') 0 j).
    { unfold fapp. generalize (fmul (dim w) (mbit w m') (mbit w m') 0). intros g.
      revert Hj. clear. generalize (dim w). induction n; simpl; [lia|]. intros Hj.
      destruct (Nat.eqb_spec n j) as [->|Hne].
      - rewrite andb_true_r. replace (xsum j (fun k => g k && (k =? j))) with false; [destruct (g j); reflexivity|].
        symmetry. assert (forall q, q <= j -> xsum q (fun k => g k && (k =? j)) = false); [|auto].
        induction q; simpl; auto. intros Hq. rewrite IHq by lia.
        destruct (Nat.eqb_spec q j); [lia|]. rewrite andb_false_r. reflexivity.
      - rewrite andb_false_r, xorb_false_r. apply IHn. lia. }
    rewrite Z in E0. rewrite U in H. unfold fid.
    rewrite <- H. destruct (fmul (dim w) (mbit w m') (mbit w m') 0 j),
      (fapp (dim w) (mbit w m') (vbit w d) 0), (vbit w d 0); simpl in *; congruence.
  - exists (fun _ => false). split; [reflexivity|]. cbn [amat avec]. intros H. apply E0. apply H.
    pose proof (dim_pos w). lia.
Qed.
Example C38_ex_main : exists s', genMatpair_same LE W4 (fresh_m W4) (mkworld 0 1 1 (fun _ => 1%N) 0)
  = Ok ([[1]; [14]; [11]; [2]]%N, s').
Proof. eexists. vm_compute. reflexivity. Qed.

(** C39: affineU128 on a memory, the input at p and the output at q, wherever they are:
    the two words at q become the image of the two words that were at p (the same as for
    separate arrays), and nothing else changes. *)
Lemma C39_overlap_main : forall e f p q h, wfA W128 f -> p + 1 < List.length h -> q + 1 < List.length h ->
  exists h' y0 y1, affineU128_mem e f p q h = Ok h' /\
    affineU e W128 f [nth p h 0%N; nth (p + 1) h 0%N] = Ok [y0; y1] /\
    veq 128 (vbit W128 [y0; y1])
      (vadd (fapp 128 (mbit W128 (amat f)) (vbit W128 [nth p h 0%N; nth (p + 1) h 0%N]))
            (vbit W128 (avec f))) /\
    List.length h' = List.length h /\ nth q h' 0%N = y0 /\ nth (q + 1) h' 0%N = y1 /\
    (forall k, k <> q -> k <> q + 1 -> nth k h' 0%N = nth k h 0%N).
Proof.
  intros e f p q h Hf Hp Hq.
  destruct (affineU_spec e W128 f [nth p h 0%N; nth (p + 1) h 0%N] Hf eq_refl) as (y & E & Wy & B).
  destruct y as [|y0 [|y1 [|]]]; try (destruct Wy as [Wy _]; discriminate Wy).
  exists (upd (upd h q y0) (q + 1) y1), y0, y1.
  split; [apply affineU128_mem_ok; auto|]. split; [exact E|]. split; [exact B|].
  rewrite !length_upd'. split; [reflexivity|].
  rewrite !nth_upd, !length_upd'. rewrite Nat.eqb_refl.
  destruct (Nat.eqb_spec q (q + 1)); [lia|]. rewrite Nat.eqb_refl. cbn [andb].
  assert (L1 : Nat.ltb q (List.length h) = true) by (apply Nat.ltb_lt; lia).
  assert (L2 : Nat.ltb (q + 1) (List.length h) = true) by (apply Nat.ltb_lt; lia).
  rewrite L1, L2. split; [reflexivity|]. split; [reflexivity|]. intros k K1 K2.
  rewrite !nth_upd. destruct (Nat.eqb_spec k (q + 1)); [lia|]. destruct (Nat.eqb_spec k q); [lia|].
  reflexivity.
Qed.
Example C39_ex_main :
  let f := mkaff (sample W128) (samplev W128) in
  wfA W128 f /\
  affineU128_mem LE f 0 1 [1; 2; 3]%N = affineU128_mem LE f 0 1 [1; 2; 7]%N /\
  affineU128_mem LE f 0 0 [1; 2; 3]%N <> affineU128_mem LE f 1 0 [1; 2; 3]%N.
Proof.
  split; [split; [apply wf_sample|apply wf_samplev]|]. vm_compute. split; [reflexivity|discriminate].
Qed.
