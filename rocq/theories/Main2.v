(** Final form of the properties C12 - C25.  tools/gen_props.py copies the
    statements (names without the suffix _main) to Properties2.v. *)
From Coq Require Import Arith NArith ZArith List Bool Lia Setoid Morphisms.
From Verif Require Import Base Tables Model Spec LinAlg Mem Cons Elim Parity Trans Mul Rand
  GenPair Com Affine Bits Check Gauss Rel.
Import ListNotations.

Lemma com_count : forall c (A : Type) (l : list A),
  length l * dim (com_src c) = dim (com_tgt c) -> length l = com_n c.
Proof.
  intros c A l H. rewrite com_dims in H. pose proof (dim_pos (com_src c)). nia.
Qed.

(** C12: Matrixcom writes the block diagonal matrix (little-endian). *)
Lemma C12_Matrixcom_main : forall c ms out,
  length ms * dim (com_src c) = dim (com_tgt c) ->
  Forall (shapeM (com_src c)) ms -> shapeM (com_tgt c) out ->
  exists r, Matrixcom LE c ms out = Ok r /\ wfM (com_tgt c) r /\
    forall i j, i < dim (com_tgt c) -> j < dim (com_tgt c) ->
      let s := dim (com_src c) in
      mbit (com_tgt c) r i j =
        if Nat.eqb (i / s) (j / s)
        then mbit (com_src c) (nth (i / s) ms []) (i mod s) (j mod s) else false.
Proof.
  intros c ms out HL Hms Ho. apply com_count in HL.
  destruct (wp_exists _ _ _ (Matrixcom_wp LE c ms out HL Hms Ho)) as (r & E & Wr & Br).
  exists r. split; auto. split; auto. intros i j Hi Hj s. rewrite Br by auto.
  unfold blocks. cbn [slot]. fold s. rewrite (Nat.eqb_sym (j / s)). reflexivity.
Qed.
Example C12_ex_main : forall c,
  let ms := repeat (sample (com_src c)) (dim (com_tgt c) / dim (com_src c)) in
  length ms * dim (com_src c) = dim (com_tgt c) /\ Forall (shapeM (com_src c)) ms /\
  shapeM (com_tgt c) (zeros (com_tgt c)).
Proof.
  intros c ms. split; [destruct c; reflexivity|]. split; [|apply shape_zeros].
  apply Forall_forall. intros x Hx. apply repeat_spec in Hx. subst x. apply wfM_shape, wf_sample.
Qed.

(** C13: the concatenated affine transformation acts block by block (little-endian). *)
Lemma C13_affinecom_main : forall c fs xs out ox oy d,
  length fs * dim (com_src c) = dim (com_tgt c) -> length xs * dim (com_src c) = dim (com_tgt c) ->
  Forall (wfA (com_src c)) fs -> Forall (shapeV (com_src c)) xs ->
  shapeM (com_tgt c) (amat out) -> typedV (com_tgt c) (avec out) ->
  typedV (com_tgt c) ox -> typedV (com_tgt c) oy ->
  exists h x ys y,
    affinecom LE c fs out = Ok h /\ Vectorcom LE c xs ox = Ok x /\
    length ys = length xs /\
    (forall q, q < length xs -> affineU LE (com_src c) (nth q fs d) (nth q xs []) = Ok (nth q ys [])) /\
    affineU LE (com_tgt c) h x = Ok y /\ Vectorcom LE c ys oy = Ok y.
Proof.
  intros c fs xs out ox oy d HLf HLx Hfs Hxs Hm Hv Hox Hoy.
  apply com_count in HLf. apply com_count in HLx.
  destruct (wp_exists _ _ _ (affinecom_wp c fs out HLf Hfs Hm Hv)) as (h & Eh & Wh & Bm & Bv).
  destruct (wp_exists _ _ _ (Vectorcom_wp LE c xs ox HLx Hxs Hox)) as (x & Ex & _).
  destruct (Vectorcom_col c xs ox x HLx Hxs Hox Ex) as [Wx Bx].
  set (s := dim (com_src c)) in *. set (t := dim (com_tgt c)) in *.
  assert (Hys : exists ys, length ys = com_n c /\ Forall (wfV (com_src c)) ys /\
     forall q, q < com_n c -> affineU LE (com_src c) (nth q fs d) (nth q xs []) = Ok (nth q ys []) /\
       veq s (vbit (com_src c) (nth q ys [])) (aapp (com_src c) (nth q fs d) (vbit (com_src c) (nth q xs [])))).
  { assert (HG : forall n, n <= com_n c -> exists ys, length ys = n /\ Forall (wfV (com_src c)) ys /\
      forall q, q < n -> affineU LE (com_src c) (nth q fs d) (nth q xs []) = Ok (nth q ys []) /\
       veq s (vbit (com_src c) (nth q ys [])) (aapp (com_src c) (nth q fs d) (vbit (com_src c) (nth q xs [])))).
    { induction n as [|n IH]; intros Hn.
      - exists []. split; auto. split; auto. intros; lia.
      - destruct IH as (ys & L & F & H); [lia|].
        assert (Wf : wfA (com_src c) (nth n fs d)) by (rewrite Forall_forall in Hfs; apply Hfs, nth_In; lia).
        assert (Sx : shapeV (com_src c) (nth n xs [])) by (rewrite Forall_forall in Hxs; apply Hxs, nth_In; lia).
        destruct (affineU_spec LE _ _ _ Wf Sx) as (y & Ey & Wy & By).
        exists (ys ++ [y]). split; [rewrite app_length; simpl; lia|]. split.
        + apply Forall_app. split; auto.
        + intros q Hq. destruct (Nat.eq_dec q n) as [->|].
          * rewrite app_nth2, L, Nat.sub_diag by lia. cbn [nth]. auto.
          * rewrite app_nth1 by lia. apply H. lia. }
    apply HG. lia. }
  destruct Hys as (ys & Ly & Wys & Hy).
  destruct (affineU_spec LE (com_tgt c) h x Wh (wfV_shape _ _ Wx)) as (y & Ey & Wy & By).
  exists h, x, ys, y. split; auto. split; auto. split; [lia|]. split.
  { intros q Hq. apply Hy. lia. }
  split; auto.
  assert (Sys : Forall (shapeV (com_src c)) ys).
  { eapply Forall_impl; [|exact Wys]. intros a. apply wfV_shape. }
  destruct (wp_exists _ _ _ (Vectorcom_wp LE c ys oy Ly Sys Hoy)) as (z & Ez & _).
  destruct (Vectorcom_col c ys oy z Ly Sys Hoy Ez) as [Wz Bz].
  rewrite Ez. f_equal. apply (vbit_ext (com_tgt c)); auto. intros j Hj.
  rewrite Bz by auto. rewrite By by auto.
  rewrite (affinecom_action c fs h x xs HLf Bm Bv Bx j d Hj).
  pose proof (dim_pos (com_src c)) as P. fold s in P.
  assert (Hj' : j < s * com_n c) by (unfold s; rewrite <- com_dims; exact Hj).
  destruct (div_sub s (com_n c) j ltac:(lia) Hj') as [Dj Mj].
  apply Hy; auto.
Qed.
Example C13_ex_main : forall c,
  let n := dim (com_tgt c) / dim (com_src c) in
  let fs := repeat (mkaff (sample (com_src c)) (samplev (com_src c))) n in
  let xs := repeat (samplev (com_src c)) n in
  length fs * dim (com_src c) = dim (com_tgt c) /\ length xs * dim (com_src c) = dim (com_tgt c) /\
  Forall (wfA (com_src c)) fs /\ Forall (shapeV (com_src c)) xs /\
  shapeM (com_tgt c) (zeros (com_tgt c)) /\ typedV (com_tgt c) (samplev (com_tgt c)).
Proof.
  intros c n fs xs. split; [destruct c; reflexivity|]. split; [destruct c; reflexivity|].
  split; [|split; [|split]].
  - apply Forall_forall. intros x Hx. apply repeat_spec in Hx. subst x.
    split; [apply wf_sample|apply wf_samplev].
  - apply Forall_forall. intros x Hx. apply repeat_spec in Hx. subst x. apply wfV_shape, wf_samplev.
  - apply shape_zeros.
  - apply wfV_typed, wf_samplev.
Qed.

(** C14: the concatenation is invertible exactly when every block is. *)
Lemma C14_invertible_iff_main : forall c ms out,
  length ms * dim (com_src c) = dim (com_tgt c) ->
  Forall (wfM (com_src c)) ms -> shapeM (com_tgt c) out ->
  exists r, Matrixcom LE c ms out = Ok r /\
    (isinvert (com_tgt c) r = Ok 1%N <-> Forall (fun m => isinvert (com_src c) m = Ok 1%N) ms).
Proof.
  intros c ms out HL Hms Ho. apply com_count in HL.
  assert (Sms : Forall (shapeM (com_src c)) ms).
  { eapply Forall_impl; [|exact Hms]. intros a. apply wfM_shape. }
  destruct (wp_exists _ _ _ (Matrixcom_wp LE c ms out HL Sms Ho)) as (r & E & Wr & Br).
  exists r. split; auto.
  pose proof (dim_pos (com_src c)) as P.
  assert (HR : forall w m, wfM w m -> isinvert w m = Ok 1%N <-> invertible (dim w) (mbit w m)).
  { intros w m Hm. split; [apply isinvert_1; auto|]. intros HI.
    destruct (wp_exists _ _ _ (isinvert_wp w m Hm)) as (b & Eb & [[-> _]|[_ H]]); [exact Eb|contradiction]. }
  rewrite HR by auto.
  assert (Hbd : invertible (dim (com_tgt c)) (mbit (com_tgt c) r) <->
    invertible (dim (com_tgt c)) (bdiag (dim (com_src c)) (fun q => mbit (com_src c) (nth q ms [])))).
  { unfold invertible. split; intros [B HB]; exists B; [rewrite <- Br|unfold bdiag in HB; cbn [slot] in Br];
      [exact HB|]. rewrite Br. exact HB. }
  rewrite Hbd, com_dims, bdiag_invertible by lia. rewrite Forall_forall. split.
  - intros H m Hm. destruct (In_nth ms m [] Hm) as (q & Hq & <-).
    apply HR; [|apply H; lia]. rewrite Forall_forall in Hms. apply Hms. auto.
  - intros H q Hq. apply HR; [rewrite Forall_forall in Hms; apply Hms; apply nth_In; lia|].
    apply H. apply nth_In. lia.
Qed.
(** C14: concatenating the inverses of invertible blocks gives the inverse. *)
Lemma C14_inverse_main : forall c ms vs out out2 out3,
  length ms * dim (com_src c) = dim (com_tgt c) ->
  Forall (wfM (com_src c)) ms -> shapeM (com_tgt c) out -> shapeM (com_tgt c) out2 ->
  shapeM (com_tgt c) out3 ->
  Forall (fun m => isinvert (com_src c) m = Ok 1%N) ms ->
  Forall2 (fun m v => exists o, shapeM (com_src c) o /\ invs (com_src c) m o = Ok v) ms vs ->
  exists r v, Matrixcom LE c ms out = Ok r /\ Matrixcom LE c vs out2 = Ok v /\
    invs (com_tgt c) r out3 = Ok v.
Proof.
  intros c ms vs out out2 out3 HL Hms Ho Ho2 Ho3 Hi HF. apply com_count in HL.
  pose proof (dim_pos (com_src c)) as P.
  assert (Sms : Forall (shapeM (com_src c)) ms).
  { eapply Forall_impl; [|exact Hms]. intros a. apply wfM_shape. }
  assert (HLv : length vs = com_n c) by (rewrite <- HL; clear - HF; induction HF; cbn [length]; auto).
  assert (Hq : forall q, q < com_n c ->
    wfM (com_src c) (nth q vs []) /\
    inverse_of (dim (com_src c)) (mbit (com_src c) (nth q ms [])) (mbit (com_src c) (nth q vs []))).
  { intros q Hq.
    assert (Eq : exists o, shapeM (com_src c) o /\ invs (com_src c) (nth q ms []) o = Ok (nth q vs [])).
    { clear - HF Hq HL. rewrite <- HL in Hq. clear HL. revert q Hq. induction HF; intros q Hq; cbn [length] in Hq; [lia|].
      destruct q; cbn [nth]; auto. apply IHHF. lia. }
    assert (Wq : wfM (com_src c) (nth q ms [])) by (rewrite Forall_forall in Hms; apply Hms, nth_In; lia).
    assert (Iq : isinvert (com_src c) (nth q ms []) = Ok 1%N) by (rewrite Forall_forall in Hi; apply Hi, nth_In; lia).
    destruct Eq as (o & So & Eq). pose proof (invs_wp (com_src c) (nth q ms []) o Wq So) as HW.
    rewrite Eq in HW. simpl in HW. destruct HW as (W1 & _ & W2). split; auto.
    apply W2. apply isinvert_1; auto. }
  assert (Svs : Forall (shapeM (com_src c)) vs).
  { apply Forall_forall. intros v Hv. destruct (In_nth vs v [] Hv) as (q & Hql & <-).
    apply wfM_shape, Hq. lia. }
  destruct (wp_exists _ _ _ (Matrixcom_wp LE c ms out HL Sms Ho)) as (r & E & Wr & Br).
  destruct (wp_exists _ _ _ (Matrixcom_wp LE c vs out2 HLv Svs Ho2)) as (v & Ev & Wv & Bv).
  exists r, v. split; auto. split; auto.
  assert (HI : inverse_of (dim (com_tgt c)) (mbit (com_tgt c) r) (mbit (com_tgt c) v)).
  { rewrite Br, Bv. rewrite com_dims.
    apply (bdiag_inverse (dim (com_src c)) (com_n c)
             (fun q => mbit (com_src c) (nth q ms [])) (fun q => mbit (com_src c) (nth q vs []))); [lia|].
    intros q Hqn. apply Hq. auto. }
  destruct (wp_exists _ _ _ (invs_wp (com_tgt c) r out3 Wr Ho3)) as (z & Ez & Wz & _ & Bz).
  rewrite Ez. f_equal. apply (mbit_ext (com_tgt c)); auto.
  eapply inverse_of_unique; [apply Bz; eexists; exact HI|exact HI].
Qed.
Example C14_ex_main : forall c,
  let n := dim (com_tgt c) / dim (com_src c) in
  Forall (wfM (com_src c)) (repeat (sample (com_src c)) n) /\
  Forall (fun m => isinvert (com_src c) m = Ok 1%N) (repeat (sample (com_src c)) n) /\
  Forall (fun m => isinvert (com_src c) m = Ok 0%N) (repeat (rank1 (com_src c)) n).
Proof.
  intros c n.
  split; [|split]; apply Forall_forall; intros x Hx; apply repeat_spec in Hx; subst x.
  - apply wf_sample.
  - apply sample_invertible.
  - apply rank1_singular.
Qed.

(** C15: readbit reads bit (i,j). *)
Lemma C15_readbit_main : forall w m i j, shapeM w m ->
  (0 <= i < Z.of_nat (dim w))%Z -> (0 <= j < Z.of_nat (dim w))%Z ->
  readbit w m i j = Ok (if mbit w m (Z.to_nat i) (Z.to_nat j) then 1 else 0)%N.
Proof. intros w m i j Hm Hi Hj. apply readbit_in; auto. Qed.
(** C15: flipbit changes bit (i,j) and nothing else (also not the unused bits of 4-bit
    rows: all words but one are unchanged, and in that word one bit). *)
Lemma C15_flipbit_main : forall w m i j, shapeM w m ->
  (0 <= i < Z.of_nat (dim w))%Z -> (0 <= j < Z.of_nat (dim w))%Z ->
  exists r, flipbit w m i j = Ok r /\ shapeM w r /\
    (forall i' j', i' < dim w -> j' < dim w ->
       mbit w r i' j' = xorb (mbit w m i' j') (Nat.eqb i' (Z.to_nat i) && Nat.eqb j' (Z.to_nat j))) /\
    (forall i' k, (i' <> Z.to_nat i \/ k <> Z.to_nat j / wb w) -> word r i' k = word m i' k) /\
    (forall q, (N.of_nat (wb w) <= q)%N ->
       N.testbit (word r (Z.to_nat i) (Z.to_nat j / wb w)) q =
       N.testbit (word m (Z.to_nat i) (Z.to_nat j / wb w)) q).
Proof.
  intros w m i j Hm Hi Hj. destruct (flipbit_in w m Hm i j Hi Hj) as (r & E & S & B).
  exists r. split; auto. split; auto. split; [|split].
  - apply (one_bit w m r i j Hi Hj B).
  - intros i' k H. rewrite B.
    destruct (Nat.eqb_spec i' (Z.to_nat i)), (Nat.eqb_spec k (Z.to_nat j / wb w)); cbn [andb]; auto.
    subst. destruct H; contradiction.
  - intros q Hq. rewrite B, !Nat.eqb_refl. cbn [andb]. rewrite N.lxor_spec, N.pow2_bits_false.
    + apply xorb_false_r.
    + pose proof (wb_pos w). lia.
Qed.
(** C15: setbit with 0 or 1 sets bit (i,j) and changes nothing else. *)
Lemma C15_setbit_main : forall w m i j (b : bool), shapeM w m ->
  (0 <= i < Z.of_nat (dim w))%Z -> (0 <= j < Z.of_nat (dim w))%Z ->
  exists r, setbit w m i j (if b then 1 else 0)%Z = Ok r /\ shapeM w r /\
    (forall i' j', i' < dim w -> j' < dim w ->
       mbit w r i' j' = if (Nat.eqb i' (Z.to_nat i) && Nat.eqb j' (Z.to_nat j))%bool
                        then b else mbit w m i' j') /\
    (forall i' k, (i' <> Z.to_nat i \/ k <> Z.to_nat j / wb w) -> word r i' k = word m i' k) /\
    (forall q, (N.of_nat (wb w) <= q)%N ->
       N.testbit (word r (Z.to_nat i) (Z.to_nat j / wb w)) q =
       N.testbit (word m (Z.to_nat i) (Z.to_nat j / wb w)) q).
Proof.
  intros w m i j b Hm Hi Hj.
  destruct (C15_flipbit_main w m i j Hm Hi Hj) as (r & E & S & B & F1 & F2).
  rewrite setbit_in by auto.
  destruct (mbit w m (Z.to_nat i) (Z.to_nat j)) eqn:Eb; destruct b; cbn [Z.eqb Pos.eqb].
  - exists m. split; auto. split; auto. split; auto. intros i' j' Hi' Hj'.
    destruct (Nat.eqb_spec i' (Z.to_nat i)), (Nat.eqb_spec j' (Z.to_nat j)); subst; cbn [andb]; auto.
  - exists r. split; auto. split; auto. split; auto. intros i' j' Hi' Hj'. rewrite B by auto.
    destruct (Nat.eqb_spec i' (Z.to_nat i)), (Nat.eqb_spec j' (Z.to_nat j)); subst; cbn [andb];
      rewrite ?xorb_false_r; auto. rewrite Eb. reflexivity.
  - exists r. split; auto. split; auto. split; auto. intros i' j' Hi' Hj'. rewrite B by auto.
    destruct (Nat.eqb_spec i' (Z.to_nat i)), (Nat.eqb_spec j' (Z.to_nat j)); subst; cbn [andb];
      rewrite ?xorb_false_r; auto. rewrite Eb. reflexivity.
  - exists m. split; auto. split; auto. split; auto. intros i' j' Hi' Hj'.
    destruct (Nat.eqb_spec i' (Z.to_nat i)), (Nat.eqb_spec j' (Z.to_nat j)); subst; cbn [andb]; auto.
Qed.
Example C15_ex_main : shapeM W8 (sample W8) /\ (0 <= 7 < Z.of_nat (dim W8))%Z /\
  readbit W8 (sample W8) 7 6 = Ok 0%N /\
  flipbit W8 (sample W8) 7 6 = Ok [[255]; [127]; [63]; [31]; [15]; [7]; [3]; [3]]%N.
Proof. split; [apply wfM_shape, wf_sample|]. split; [split; reflexivity || discriminate|]. split; vm_compute; reflexivity. Qed.

(** C16: undefined behaviour exactly outside the matrix. *)
Lemma C16_defined_iff_main : forall w m i j b, shapeM w m ->
  let inside := ((0 <= i < Z.of_nat (dim w)) /\ (0 <= j < Z.of_nat (dim w)))%Z in
  (readbit w m i j = UB <-> ~ inside) /\
  (flipbit w m i j = UB <-> ~ inside) /\
  (setbit w m i j b = UB <-> ~ inside).
Proof.
  intros w m i j b Hm inside.
  assert (D : inside \/ ~ inside) by (unfold inside; lia).
  assert (HN : forall A (c : res A), (inside -> exists x, c = Ok x) -> (~ inside -> c = UB) -> (c = UB <-> ~ inside)).
  { intros A c H1 H2. split; auto. intros E. destruct D as [D|D]; auto.
    destruct (H1 D) as [x Ex]. rewrite Ex in E. discriminate. }
  assert (HF : inside -> exists x, flipbit w m i j = Ok x).
  { intros [Hi Hj]. destruct (flipbit_in w m Hm i j Hi Hj) as (r & E & _). eauto. }
  split; [|split]; apply HN.
  - intros [Hi Hj]. rewrite readbit_in by auto. eauto.
  - apply readbit_out; auto.
  - exact HF.
  - apply flipbit_out; auto.
  - intros HI. pose proof HI as [Hi Hj]. rewrite setbit_in by auto.
    destruct (Z.eqb _ b); eauto.
  - apply setbit_out; auto.
Qed.
Example C16_ex_main : readbit W128 (sample W128) 3 (-1) = UB /\ readbit W128 (sample W128) 3 128 = UB /\
  readbit W128 (sample W128) 3 127 = Ok 1%N /\ flipbit W4 (sample W4) 4 0 = UB.
Proof. vm_compute. repeat split; reflexivity. Qed.

(** C17: isequalM compares all bits. *)
Lemma C17_isequalM_main : forall w a b, shapeM w a -> shapeM w b ->
  exists r, isequalM w a b = Ok r /\ ((r = 1%N /\ a = b) \/ (r = 0%N /\ a <> b)).
Proof. intros w a b Ha Hb. apply wp_exists, isequalM_ok; auto. Qed.
(** C17: for well-formed matrices this is equality of the bits. *)
Lemma C17_isequalM_bits_main : forall w a b, wfM w a -> wfM w b ->
  (isequalM w a b = Ok 1%N <->
   forall i j, i < dim w -> j < dim w -> mbit w a i j = mbit w b i j).
Proof.
  intros w a b Ha Hb.
  destruct (wp_exists _ _ _ (isequalM_ok w a b (wfM_shape _ _ Ha) (wfM_shape _ _ Hb)))
    as (r & E & H). rewrite E. split.
  - intros Er. injection Er as ->. destruct H as [[_ ->]|[H _]]; [auto|discriminate].
  - intros HB. destruct H as [[-> _]|[_ H]]; auto. exfalso. apply H. apply (mbit_ext w); auto.
Qed.
Example C17_ex_main : isequalM W256 (sample W256) (sample W256) = Ok 1%N /\
  isequalM W256 (sample W256) (rank1 W256) = Ok 0%N.
Proof. vm_compute. split; reflexivity. Qed.

(** C18: isequalV compares all bits, except for 256-bit vectors. *)
Lemma C18_isequalV_main : forall w a b, w <> W256 -> shapeV w a -> shapeV w b ->
  exists r, isequalV w a b = Ok r /\ ((r = 1%N /\ a = b) \/ (r = 0%N /\ a <> b)).
Proof. intros w a b Hw Ha Hb. apply wp_exists, isequalV_ok; auto. Qed.
(** C18: isequalV256 compares the first two of the four elements only. *)
Lemma C18_isequalV256_main : forall a b, shapeV W256 a -> shapeV W256 b ->
  exists r, isequalV W256 a b = Ok r /\
    ((r = 1%N /\ nth 0 a 0%N = nth 0 b 0%N /\ nth 1 a 0%N = nth 1 b 0%N) \/
     (r = 0%N /\ ~ (nth 0 a 0%N = nth 0 b 0%N /\ nth 1 a 0%N = nth 1 b 0%N))).
Proof.
  intros a b Ha Hb. unfold shapeV in *. simpl in Ha, Hb.
  do 4 (destruct a as [|? a]; [discriminate|]). do 4 (destruct b as [|? b]; [discriminate|]).
  unfold isequalV, isequalV_index, eq_at, aget. cbn [nth_error bind nth].
  destruct (N.eqb_spec n n3); cbn [bind]; [|eexists; split; [reflexivity|right; tauto]].
  destruct (N.eqb_spec n0 n4); cbn [bind].
  - eexists; split; [reflexivity|left; tauto].
  - eexists; split; [reflexivity|right; tauto].
Qed.
(** C18 is false for 256 bits. *)
Lemma C18_isequalV256_refuted_main :
  exists a b, wfV W256 a /\ wfV W256 b /\ a <> b /\ isequalV W256 a b = Ok 1%N.
Proof.
  exists [1; 2; 3; 4]%N, [1; 2; 5; 6]%N.
  split; [apply vec_ofb_ok; vm_compute; reflexivity|].
  split; [apply vec_ofb_ok; vm_compute; reflexivity|]. split; [discriminate|]. vm_compute. reflexivity.
Qed.
Example C18_ex_main : shapeV W128 [1; 2]%N /\ isequalV W128 [1; 2]%N [1; 3]%N = Ok 0%N.
Proof. split; reflexivity. Qed.

(** C19: xorU is the parity of all bits, for both byte orders. *)
Lemma C19_xorU_main : forall e w l, typedV w l ->
  xorU e w l = Ok (if xsum (nw w) (fun k => xsum (cb w) (fun q => N.testbit (nth k l 0%N) (N.of_nat q)))
                   then 1 else 0)%N.
Proof. intros e w l Hl. rewrite xorU_ok by auto. reflexivity. Qed.
Example C19_ex_main : typedV W128 [0x123456789abcdef0; 0xfedcba9876543211]%N /\
  xorU LE W128 [0x123456789abcdef0; 0xfedcba9876543211]%N = Ok 1%N /\
  xorU BE W128 [0x123456789abcdef0; 0xfedcba9876543211]%N = Ok 1%N.
Proof. split; [apply vec_ofb_ok|split]; vm_compute; reflexivity. Qed.

(** C20: HWU is the number of ones, for both byte orders; its parity is xorU. *)
Lemma C20_HWU_main : forall e w l, w <> W256 -> typedV w l ->
  exists h, HWU e w l = Ok h /\ h = vweight (cb w) l /\
    xorU e w l = Ok (if N.odd h then 1 else 0)%N.
Proof.
  intros e w l Hw Hl. exists (vweight (cb w) l). rewrite HWU_ok, xorU_ok by auto.
  rewrite vweight_odd by auto using typedV_shape. auto.
Qed.
Example C20_ex_main : typedV W64 [0x123456789abcdef1]%N /\
  HWU LE W64 [0x123456789abcdef1]%N = Ok 33%N /\ vweight 64 [0x123456789abcdef1]%N = 33%N.
Proof. split; [apply vec_ofb_ok|split]; vm_compute; reflexivity. Qed.

(** ** Laws through the API *)

Lemma mul_spec : forall e w a b o, wfM w a -> wfM w b -> shapeM w o ->
  exists r, MatMulMat e w a b o = Ok r /\ wfM w r /\
    feq (dim w) (mbit w r) (fmul (dim w) (mbit w a) (mbit w b)).
Proof. intros. apply wp_exists, MatMulMat_wp; auto using wfM_typed. Qed.
Lemma mulv_spec : forall e w a x o, wfM w a -> wfV w x -> shapeV w o ->
  exists r, MatMulVec e w a x o = Ok r /\ wfV w r /\
    veq (dim w) (vbit w r) (fapp (dim w) (mbit w a) (vbit w x)).
Proof. intros. apply wp_exists, MatMulVec_wp; auto using wfM_typed, wfV_shape. Qed.
Lemma add_spec : forall w a b o, wfM w a -> wfM w b -> shapeM w o ->
  exists r, MatAddMat w a b o = Ok r /\ wfM w r /\
    feq (dim w) (mbit w r) (fadd (mbit w a) (mbit w b)).
Proof.
  intros w a b o Ha Hb Ho. rewrite MatAddMat_ok by auto using wfM_shape.
  eexists. split; [reflexivity|]. split; [apply wf_addm; auto|apply mbit_add].
Qed.
Lemma addv_spec : forall w x y o, wfV w x -> wfV w y -> shapeV w o ->
  exists r, VecAddVec w x y o = Ok r /\ wfV w r /\
    veq (dim w) (vbit w r) (vadd (vbit w x) (vbit w y)).
Proof.
  intros w x y o Hx Hy Ho. rewrite VecAddVec_ok by auto using wfV_shape.
  eexists. split; [reflexivity|]. split; [apply wf_addv; auto|apply vbit_add].
Qed.
Lemma trans_spec : forall w a o, wfM w a -> shapeM w o ->
  exists r, Mattrans w a o = Ok r /\ wfM w r /\ feq (dim w) (mbit w r) (ftr (mbit w a)).
Proof. intros. apply wp_exists, Mattrans_wp; auto. Qed.
Lemma isinvert_spec : forall w a, wfM w a ->
  exists r, isinvert w a = Ok r /\ ((r = 1%N /\ invertible (dim w) (mbit w a)) \/
                                   (r = 0%N /\ ~ invertible (dim w) (mbit w a))).
Proof. intros. apply wp_exists, isinvert_wp; auto. Qed.
Lemma invs_spec : forall w a o, wfM w a -> shapeM w o -> isinvert w a = Ok 1%N ->
  exists r, invs w a o = Ok r /\ wfM w r /\ inverse_of (dim w) (mbit w a) (mbit w r) /\
            isinvert w r = Ok 1%N.
Proof.
  intros w a o Ha Ho Hi. apply isinvert_1 in Hi; auto.
  destruct (wp_exists _ _ _ (invs_wp w a o Ha Ho)) as (r & E & Wr & Ir & Br).
  exists r. split; auto. split; auto. split; [apply Br; auto|].
  destruct (isinvert_spec w r Wr) as (b & Eb & [[-> _]|[_ H]]); [exact Eb|contradiction].
Qed.
Lemma isinvert_one : forall w a, wfM w a -> invertible (dim w) (mbit w a) -> isinvert w a = Ok 1%N.
Proof.
  intros w a Ha HI.
  destruct (isinvert_spec w a Ha) as (b & Eb & [[-> _]|[_ H]]); [exact Eb|contradiction].
Qed.
Lemma isinvert_zero : forall w a, wfM w a -> ~ invertible (dim w) (mbit w a) -> isinvert w a = Ok 0%N.
Proof.
  intros w a Ha HI.
  destruct (isinvert_spec w a Ha) as (b & Eb & [[_ H]|[-> _]]); [contradiction|exact Eb].
Qed.

(** C21: multiplication is associative. *)
Lemma C21_mul_assoc_main : forall e w a b c o1 o2 o3 o4,
  wfM w a -> wfM w b -> wfM w c -> shapeM w o1 -> shapeM w o2 -> shapeM w o3 -> shapeM w o4 ->
  exists r, (ab <- MatMulMat e w a b o1 ;; MatMulMat e w ab c o2) = Ok r /\
            (bc <- MatMulMat e w b c o3 ;; MatMulMat e w a bc o4) = Ok r.
Proof.
  intros e w a b c o1 o2 o3 o4 Ha Hb Hc H1 H2 H3 H4.
  destruct (mul_spec e w a b o1) as (ab & E1 & W1 & B1); auto.
  destruct (mul_spec e w ab c o2) as (r & E2 & W2 & B2); auto.
  destruct (mul_spec e w b c o3) as (bc & E3 & W3 & B3); auto.
  destruct (mul_spec e w a bc o4) as (r' & E4 & W4 & B4); auto.
  exists r. rewrite E1, E3. cbn [bind]. rewrite E2, E4. split; auto. f_equal.
  apply (mbit_ext w); auto. rewrite B4, B3, B2, B1. symmetry. apply fmul_assoc.
Qed.
(** C21: multiplication distributes over MatAddMat on both sides. *)
Lemma C21_distributive_main : forall e w a b c o1 o2 o3 o4 o5,
  wfM w a -> wfM w b -> wfM w c ->
  shapeM w o1 -> shapeM w o2 -> shapeM w o3 -> shapeM w o4 -> shapeM w o5 ->
  (exists r, (s <- MatAddMat w b c o1 ;; MatMulMat e w a s o2) = Ok r /\
    (x <- MatMulMat e w a b o3 ;; y <- MatMulMat e w a c o4 ;; MatAddMat w x y o5) = Ok r) /\
  (exists r, (s <- MatAddMat w b c o1 ;; MatMulMat e w s a o2) = Ok r /\
    (x <- MatMulMat e w b a o3 ;; y <- MatMulMat e w c a o4 ;; MatAddMat w x y o5) = Ok r).
Proof.
  intros e w a b c o1 o2 o3 o4 o5 Ha Hb Hc H1 H2 H3 H4 H5.
  destruct (add_spec w b c o1) as (s & Es & Ws & Bs); auto.
  split.
  - destruct (mul_spec e w a s o2) as (r & E2 & W2 & B2); auto.
    destruct (mul_spec e w a b o3) as (x & E3 & W3 & B3); auto.
    destruct (mul_spec e w a c o4) as (y & E4 & W4 & B4); auto.
    destruct (add_spec w x y o5) as (z & E5 & W5 & B5); auto.
    exists r. rewrite Es, E3, E4. cbn [bind]. rewrite E2, E5. split; auto. f_equal.
    apply (mbit_ext w); auto. rewrite B5, B4, B3, B2, Bs. symmetry. apply fmul_fadd_l.
  - destruct (mul_spec e w s a o2) as (r & E2 & W2 & B2); auto.
    destruct (mul_spec e w b a o3) as (x & E3 & W3 & B3); auto.
    destruct (mul_spec e w c a o4) as (y & E4 & W4 & B4); auto.
    destruct (add_spec w x y o5) as (z & E5 & W5 & B5); auto.
    exists r. rewrite Es, E3, E4. cbn [bind]. rewrite E2, E5. split; auto. f_equal.
    apply (mbit_ext w); auto. rewrite B5, B4, B3, B2, Bs. symmetry. apply fmul_fadd_r.
Qed.
(** C21: the identity matrix is neutral, the zero matrix absorbing. *)
Lemma C21_identity_zero_main : forall e w a o1 o2 o3 o4,
  wfM w a -> shapeM w o1 -> shapeM w o2 -> shapeM w o3 -> shapeM w o4 ->
  (id <- identityM w o1 ;; MatMulMat e w id a o2) = Ok a /\
  (id <- identityM w o1 ;; MatMulMat e w a id o2) = Ok a /\
  (exists z, initM w o3 = Ok z /\ MatMulMat e w z a o4 = Ok z /\ MatMulMat e w a z o4 = Ok z).
Proof.
  intros e w a o1 o2 o3 o4 Ha H1 H2 H3 H4. rewrite identityM_ok, initM_ok by auto. cbn [bind].
  pose proof (wf_id w) as Wi. pose proof (wf_zero w) as Wz.
  split; [|split; [|eexists; split; [reflexivity|split]]].
  - destruct (mul_spec e w (mk w (id_word w)) a o2) as (r & E & W & B); auto. rewrite E. f_equal.
    apply (mbit_ext w); auto. rewrite B, mbit_id. apply fmul_id_l.
  - destruct (mul_spec e w a (mk w (id_word w)) o2) as (r & E & W & B); auto. rewrite E. f_equal.
    apply (mbit_ext w); auto. rewrite B, mbit_id. apply fmul_id_r.
  - destruct (mul_spec e w (mk w (fun _ _ => 0%N)) a o4) as (r & E & W & B); auto. rewrite E. f_equal.
    apply (mbit_ext w); auto. rewrite B, mbit_zero. intros i j Hi Hj. unfold fmul, fzero.
    apply xsum_false. auto.
  - destruct (mul_spec e w a (mk w (fun _ _ => 0%N)) o4) as (r & E & W & B); auto. rewrite E. f_equal.
    apply (mbit_ext w); auto. rewrite B, mbit_zero. intros i j Hi Hj. unfold fmul, fzero.
    apply xsum_false. intros. apply andb_false_r.
Qed.
(** C21: products act one after the other, and MatMulVec is additive. *)
Lemma C21_vectors_main : forall e w a b x y o1 o2 o3 o4 o5,
  wfM w a -> wfM w b -> wfV w x -> wfV w y ->
  shapeM w o1 -> shapeV w o2 -> shapeV w o3 -> shapeV w o4 -> shapeV w o5 ->
  (exists r, (ab <- MatMulMat e w a b o1 ;; MatMulVec e w ab x o2) = Ok r /\
             (bx <- MatMulVec e w b x o3 ;; MatMulVec e w a bx o4) = Ok r) /\
  (exists r, (s <- VecAddVec w x y o2 ;; MatMulVec e w a s o3) = Ok r /\
     (u <- MatMulVec e w a x o2 ;; v <- MatMulVec e w a y o4 ;; VecAddVec w u v o5) = Ok r).
Proof.
  intros e w a b x y o1 o2 o3 o4 o5 Ha Hb Hx Hy H1 H2 H3 H4 H5. split.
  - destruct (mul_spec e w a b o1) as (ab & E1 & W1 & B1); auto.
    destruct (mulv_spec e w ab x o2) as (r & E2 & W2 & B2); auto.
    destruct (mulv_spec e w b x o3) as (bx & E3 & W3 & B3); auto.
    destruct (mulv_spec e w a bx o4) as (r' & E4 & W4 & B4); auto.
    exists r. rewrite E1, E3. cbn [bind]. rewrite E2, E4. split; auto. f_equal.
    apply (vbit_ext w); auto. rewrite B4, B3, B2, B1. symmetry. apply fmul_fapp.
  - destruct (addv_spec w x y o2) as (s & E1 & W1 & B1); auto.
    destruct (mulv_spec e w a s o3) as (r & E2 & W2 & B2); auto.
    destruct (mulv_spec e w a x o2) as (u & E3 & W3 & B3); auto.
    destruct (mulv_spec e w a y o4) as (v & E4 & W4 & B4); auto.
    destruct (addv_spec w u v o5) as (z & E5 & W5 & B5); auto.
    exists r. rewrite E1, E3. cbn [bind]. rewrite E2, E4. cbn [bind]. rewrite E5. split; auto. f_equal.
    apply (vbit_ext w); auto. rewrite B5, B4, B3, B2, B1. symmetry. apply fapp_vadd.
Qed.
Example C21_ex_main : forall w, wfM w (sample w) /\ wfM w (rank1 w) /\ wfV w (samplev w) /\
  shapeM w (zeros w) /\ shapeV w (zerov w).
Proof. intros w. auto using wf_sample, wf_rank1, wf_samplev, shape_zeros, shape_zerov. Qed.

(** C22: (A*B)^T = B^T * A^T. *)
Lemma C22_trans_mul_main : forall e w a b o1 o2 o3 o4 o5,
  wfM w a -> wfM w b -> shapeM w o1 -> shapeM w o2 -> shapeM w o3 -> shapeM w o4 -> shapeM w o5 ->
  exists r, (ab <- MatMulMat e w a b o1 ;; Mattrans w ab o2) = Ok r /\
    (bt <- Mattrans w b o3 ;; at_ <- Mattrans w a o4 ;; MatMulMat e w bt at_ o5) = Ok r.
Proof.
  intros e w a b o1 o2 o3 o4 o5 Ha Hb H1 H2 H3 H4 H5.
  destruct (mul_spec e w a b o1) as (ab & E1 & W1 & B1); auto.
  destruct (trans_spec w ab o2) as (r & E2 & W2 & B2); auto.
  destruct (trans_spec w b o3) as (bt & E3 & W3 & B3); auto.
  destruct (trans_spec w a o4) as (at_ & E4 & W4 & B4); auto.
  destruct (mul_spec e w bt at_ o5) as (r' & E5 & W5 & B5); auto.
  exists r. rewrite E1, E3, E4. cbn [bind]. rewrite E2, E5. split; auto. f_equal.
  apply (mbit_ext w); auto. rewrite B5, B4, B3, B2, B1. symmetry. apply fmul_ftr.
Qed.

(** C23: a product is invertible exactly when both factors are. *)
Lemma C23_isinvert_mul_main : forall e w a b o, wfM w a -> wfM w b -> shapeM w o ->
  exists ra rb rab, isinvert w a = Ok ra /\ isinvert w b = Ok rb /\
    (ab <- MatMulMat e w a b o ;; isinvert w ab) = Ok rab /\ rab = N.min ra rb.
Proof.
  intros e w a b o Ha Hb Ho.
  destruct (mul_spec e w a b o) as (ab & E1 & W1 & B1); auto.
  destruct (isinvert_spec w a Ha) as (ra & Ea & Ia).
  destruct (isinvert_spec w b Hb) as (rb & Eb & Ib).
  destruct (isinvert_spec w ab W1) as (rab & Eab & Iab).
  exists ra, rb, rab. split; auto. split; auto. rewrite E1. cbn [bind]. split; auto.
  assert (HI : invertible (dim w) (mbit w ab) <->
               invertible (dim w) (mbit w a) /\ invertible (dim w) (mbit w b)).
  { split.
    - intros [C [H1 H2]]. rewrite B1 in H1, H2. split.
      + apply (invertible_factor_l (dim w) (mbit w a) (mbit w b)). exists C. split; auto.
      + apply (invertible_factor_r (dim w) (mbit w a) (mbit w b)). exists C. split; auto.
    - intros [H1 H2]. destruct (invertible_mul _ _ _ H1 H2) as [C HC]. exists C.
      rewrite B1. exact HC. }
  destruct Ia as [[-> Ia]|[-> Ia]], Ib as [[-> Ib]|[-> Ib]], Iab as [[-> Iab]|[-> Iab]]; auto;
    exfalso; tauto.
Qed.
(** C23: transposition does not change invertibility. *)
Lemma C23_isinvert_trans_main : forall w a o, wfM w a -> shapeM w o ->
  exists r, isinvert w a = Ok r /\ (t <- Mattrans w a o ;; isinvert w t) = Ok r.
Proof.
  intros w a o Ha Ho. destruct (trans_spec w a o) as (t & E1 & W1 & B1); auto.
  destruct (isinvert_spec w a Ha) as (ra & Ea & Ia). exists ra. split; auto.
  rewrite E1. cbn [bind].
  assert (HI : invertible (dim w) (mbit w t) <-> invertible (dim w) (mbit w a)).
  { rewrite (invertible_ftr (dim w) (mbit w a)).
    split; intros [C HC]; exists C; [rewrite <- B1|rewrite B1]; exact HC. }
  destruct Ia as [[-> Ia]|[-> Ia]].
  - apply isinvert_one; tauto.
  - apply isinvert_zero; tauto.
Qed.
(** C23: inverses of products, of inverses and of transposed matrices. *)
Lemma C23_invs_laws_main : forall e w a b o1 o2 o3 o4 o5,
  wfM w a -> wfM w b -> shapeM w o1 -> shapeM w o2 -> shapeM w o3 -> shapeM w o4 -> shapeM w o5 ->
  isinvert w a = Ok 1%N -> isinvert w b = Ok 1%N ->
  (exists r, (ab <- MatMulMat e w a b o1 ;; invs w ab o2) = Ok r /\
     (bi <- invs w b o3 ;; ai <- invs w a o4 ;; MatMulMat e w bi ai o5) = Ok r) /\
  (ai <- invs w a o1 ;; invs w ai o2) = Ok a /\
  (exists r, (t <- Mattrans w a o1 ;; invs w t o2) = Ok r /\
             (ai <- invs w a o3 ;; Mattrans w ai o4) = Ok r).
Proof.
  intros e w a b o1 o2 o3 o4 o5 Ha Hb H1 H2 H3 H4 H5 Ia Ib.
  assert (Hinv : forall o x y, shapeM w o -> wfM w x -> wfM w y ->
            inverse_of (dim w) (mbit w x) (mbit w y) -> invs w x o = Ok y).
  { intros o x y Ho Hx Hy HI.
    destruct (invs_spec w x o Hx Ho) as (r & E & W & B & _).
    { apply isinvert_one; auto. exists (mbit w y). exact HI. }
    rewrite E. f_equal. apply (mbit_ext w); auto. eapply inverse_of_unique; eauto. }
  split; [|split].
  - destruct (mul_spec e w a b o1) as (ab & E1 & W1 & B1); auto.
    destruct (invs_spec w b o3) as (bi & E2 & W2 & B2 & _); auto.
    destruct (invs_spec w a o4) as (ai & E3 & W3 & B3 & _); auto.
    destruct (mul_spec e w bi ai o5) as (r & E4 & W4 & B4); auto.
    exists r. rewrite E1, E2, E3. cbn [bind]. rewrite E4. split; auto.
    apply Hinv; auto. rewrite B1, B4. apply inverse_of_mul; auto.
  - destruct (invs_spec w a o1) as (ai & E3 & W3 & B3 & I3); auto. rewrite E3. cbn [bind].
    apply Hinv; auto. apply inverse_of_sym. exact B3.
  - destruct (trans_spec w a o1) as (t & E1 & W1 & B1); auto.
    destruct (invs_spec w a o3) as (ai & E3 & W3 & B3 & _); auto.
    destruct (trans_spec w ai o4) as (r & E4 & W4 & B4); auto.
    exists r. rewrite E1, E3. cbn [bind]. rewrite E4. split; auto.
    apply Hinv; auto. rewrite B1, B4. apply inverse_of_ftr. exact B3.
Qed.
Example C23_ex_main : forall w, wfM w (sample w) /\ isinvert w (sample w) = Ok 1%N /\ shapeM w (zeros w).
Proof. intros w. auto using wf_sample, sample_invertible, shape_zeros. Qed.

(** C24: 4-bit matrix functions write entries below 16. *)
Lemma C24_matrices_main : forall e m a b o s, shapeM W4 m ->
  wfM W4 a -> wfM W4 b -> shapeM W4 o -> typedM W4 m ->
  wp (initM W4 m) (wfM W4) /\ wp (identityM W4 m) (wfM W4) /\ wp (copyM W4 a m) (wfM W4) /\
  wp (randM e W4 m s) (fun r => wfM W4 (fst r)) /\
  wp (invs W4 a m) (wfM W4) /\ wp (MatAddMat W4 a b m) (wfM W4) /\
  wp (Mattrans W4 a m) (wfM W4) /\ wp (MatMulMat e W4 a b m) (wfM W4) /\
  wp (genMatpair e W4 m o s) (fun r => wfM W4 (fst (fst r)) /\ wfM W4 (snd (fst r))) /\
  (forall i j c, (0 <= i < 4)%Z -> (0 <= j < 4)%Z ->
     wp (flipbit W4 a i j) (wfM W4) /\ wp (setbit W4 a i j c) (wfM W4)).
Proof.
  intros e m a b o s Hm Ha Hb Ho Ht.
  rewrite initM_ok, identityM_ok, copyM_ok, randM_ok, MatAddMat_ok by auto using wfM_shape.
  split; [apply wf_zero|]. split; [apply wf_id|]. split; [exact Ha|]. split; [apply wf_rand|].
  split. { eapply wp_mono; [apply invs_wp; auto|]. intros r H. apply H. }
  split; [apply wf_addm; auto|].
  split. { eapply wp_mono; [apply Mattrans_wp; auto|]. intros r H. apply H. }
  split. { eapply wp_mono; [apply MatMulMat_wp; auto using wfM_typed|]. intros r H. apply H. }
  split. { eapply wp_mono; [apply genMatpair_wp; auto|]. intros [[x y] z] H. split; apply H. }
  intros i j c Hi Hj.
  assert (HF : wp (flipbit W4 a i j) (wfM W4)).
  { destruct (flipbit_in W4 a (wfM_shape _ _ Ha) i j Hi Hj) as (r & E & S & B). rewrite E. simpl.
    apply mat_of_iff in Ha. apply mat_of_iff. split; auto. intros i' k. rewrite B.
    destruct (_ && _)%bool; [|apply Ha]. apply lxor_bound; [apply Ha|].
    apply pow2_bound. pose proof (wb_pos W4). lia. }
  split; auto. rewrite setbit_in by auto using wfM_shape. destruct (Z.eqb _ c); [exact Ha|exact HF].
Qed.
(** C24: 4-bit vector and affine functions write entries below 16. *)
Lemma C24_vectors_main : forall e v a x y f g fo go s n,
  typedV W4 v -> wfM W4 a -> wfV W4 x -> wfV W4 y -> wfA W4 f -> wfA W4 g ->
  shapeM W4 (amat fo) -> typedV W4 (avec fo) -> shapeA W4 go ->
  wp (initV W4 v) (wfV W4) /\ wp (randV e W4 v s) (fun r => wfV W4 (fst r)) /\
  wp (VecAddVec W4 x y v) (wfV W4) /\ wp (MatMulVec e W4 a x v) (wfV W4) /\
  wp (MatMulNum e W4 a n) (fun r => (r < 16)%N) /\ wp (affineU e W4 f x) (wfV W4) /\
  wp (affinemix e W4 f g go) (wfA W4) /\
  wp (genaffinepair e W4 fo go s) (fun r => wfA W4 (fst (fst r)) /\ wfA W4 (snd (fst r))).
Proof.
  intros e v a x y f g fo go s n Hv Ha Hx Hy Hf Hg Hfo Hfv Hgo.
  rewrite initV_ok, randV_ok, VecAddVec_ok by auto using wfV_shape, typedV_shape.
  split; [apply wf_zerov|]. split; [apply wf_randv|]. split; [apply wf_addv; auto|].
  split. { eapply wp_mono; [apply MatMulVec_wp; auto using wfM_typed, wfV_shape, typedV_shape|]. intros r H. apply H. }
  split. { eapply wp_mono; [apply MatMulNum_wp; auto using wfM_typed|]. intros r [[_ H] _].
           inversion H; subst. assumption. }
  split. { destruct (affineU_spec e W4 f x Hf (wfV_shape _ _ Hx)) as (r & E & W & _). rewrite E. exact W. }
  split. { destruct (affinemix_spec e W4 f g go Hf Hg Hgo) as (r & E & W & _). rewrite E. exact W. }
  eapply wp_mono; [apply genaffinepair_wp; auto|]. intros [[p q] z] H. split; apply H.
Qed.
Example C24_ex_main : wfM W4 (sample W4) /\ wfM W4 (rank1 W4) /\ wfV W4 (samplev W4) /\
  wfA W4 (mkaff (sample W4) (samplev W4)) /\ typedM W4 [[255]; [17]; [0]; [128]]%N.
Proof.
  split; [apply wf_sample|]. split; [apply wf_rank1|]. split; [apply wf_samplev|].
  split; [split; [apply wf_sample|apply wf_samplev]|]. apply mat_ofb_ok. vm_compute. reflexivity.
Qed.

(** C25: the unused high nibble changes results: each pair differs in unused bits only. *)
Lemma C25_high_nibble_refuted_main : exists a b c d o,
  typedM W4 a /\ typedM W4 b /\ typedM W4 c /\ typedM W4 d /\ shapeM W4 o /\
  feq 4 (mbit W4 a) (mbit W4 b) /\ feq 4 (mbit W4 c) (mbit W4 d) /\
  Mattrans W4 a o <> Mattrans W4 b o /\
  MatMulMat LE W4 a a o <> MatMulMat LE W4 a b o /\
  isequalM W4 a b = Ok 0%N /\
  isinvert W4 c = Ok 1%N /\ isinvert W4 d = Ok 0%N.
Proof.
  exists [[1]; [2]; [4]; [8]]%N, [[17]; [18]; [20]; [24]]%N,
         [[8]; [4]; [2]; [1]]%N, [[8]; [4]; [2]; [17]]%N, (zeros W4).
  assert (HF : forall x y, forallb (fun i => forallb (fun j => Bool.eqb (mbit W4 x i j) (mbit W4 y i j))
                 (seq 0 4)) (seq 0 4) = true -> feq 4 (mbit W4 x) (mbit W4 y)).
  { intros x y H i j Hi Hj. rewrite forallb_forall in H.
    specialize (H i ltac:(apply in_seq; lia)). rewrite forallb_forall in H.
    apply Bool.eqb_prop, H. apply in_seq. lia. }
  do 4 (split; [apply mat_ofb_ok; vm_compute; reflexivity|]). split; [apply shape_zeros|].
  split; [apply HF; vm_compute; reflexivity|]. split; [apply HF; vm_compute; reflexivity|].
  split; [vm_compute; discriminate|]. split; [vm_compute; discriminate|].
  vm_compute. auto.
Qed.
(** C25: inverse, matrix-vector product and left factor of a product ignore it. *)
Lemma C25_ignored_main : forall e a b x y v m o u, typedM W4 a -> typedM W4 b ->
  feq 4 (mbit W4 a) (mbit W4 b) -> shapeV W4 x -> shapeV W4 y -> veq 4 (vbit W4 x) (vbit W4 y) ->
  wfM W4 m -> shapeM W4 o -> shapeV W4 v ->
  invs W4 a u = invs W4 b u /\
  MatMulVec e W4 a x v = MatMulVec e W4 b y v /\
  MatMulMat e W4 a m o = MatMulMat e W4 b m o.
Proof.
  intros e a b x y v m o u Ha Hb HB Hx Hy HV Hm Ho Hv. split; [|split].
  - apply invs_sig. apply sig_bits; auto using typedM_shape.
  - destruct (wp_exists _ _ _ (MatMulVec_wp e W4 a x v Ha Hx Hv)) as (r & E & W & B).
    destruct (wp_exists _ _ _ (MatMulVec_wp e W4 b y v Hb Hy Hv)) as (r' & E' & W' & B').
    rewrite E, E'. f_equal. apply (vbit_ext W4); auto. change (dim W4) with 4 in *.
    rewrite B, B', HB, HV. reflexivity.
  - destruct (wp_exists _ _ _ (MatMulMat_wp e W4 a m o Ha Hm Ho)) as (r & E & W & B).
    destruct (wp_exists _ _ _ (MatMulMat_wp e W4 b m o Hb Hm Ho)) as (r' & E' & W' & B').
    rewrite E, E'. f_equal. apply (mbit_ext W4); auto. change (dim W4) with 4 in *.
    rewrite B, B', HB. reflexivity.
Qed.
Example C25_ex_main : let a := [[17]; [34]; [68]; [136]]%N in let b := [[1]; [2]; [4]; [8]]%N in
  typedM W4 a /\ typedM W4 b /\ a <> b /\ feq 4 (mbit W4 a) (mbit W4 b).
Proof.
  intros a b. split; [apply mat_ofb_ok; reflexivity|]. split; [apply mat_ofb_ok; reflexivity|].
  split; [discriminate|]. intros i j Hi Hj.
  do 4 (destruct i as [|i]; [do 4 (destruct j as [|j]; [reflexivity|]); lia|]). lia.
Qed.
