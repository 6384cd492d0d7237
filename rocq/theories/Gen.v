(** The generators of the test programs. *)
From Coq Require Import Arith NArith List Bool Lia Setoid Morphisms.
From Verif Require Import Base Tables Model Spec LinAlg Mem Cons Rand Mul Elim GenPair ModelGen SpecGen.
Import ListNotations.

Lemma reseed_int_ok : forall s, w_seed s <> (2 ^ 31 - 1)%N -> reseed_int s = Ok (reseed s).
Proof. intros s H. unfold reseed_int. destruct (N.eqb_spec (w_seed s) (2 ^ 31 - 1)); congruence. Qed.

(** ** Reverse Gaussian elimination *)
Lemma rand_exchange_wp : forall w i m s (Q : mat * world -> Prop), wfM w m -> i < dim w - 1 ->
  (forall m' s' p, wfM w m' -> i < p -> p < dim w ->
     feq (dim w) (mbit w m') (rswap i p (mbit w m)) -> w_seed s' = w_seed s -> Q (m', s')) ->
  wp (rand_exchange w i (m, s)) Q.
Proof.
  intros w i m s Q Hm Hi HQ. unfold rand_exchange.
  pose proof (f_equal (fun x => w_seed (snd x)) (eq_refl (cus_random s))) as Hs.
  unfold cus_random at 2 in Hs. cbn [snd w_seed] in Hs.
  destruct (cus_random s) as [a s1]. cbn [snd] in Hs.
  unfold urem. destruct (N.eqb_spec (N.of_nat (dim w - 1 - i)) 0) as [E|E]; [lia|]. cbn [bind].
  pose proof (N.mod_lt a (N.of_nat (dim w - 1 - i)) E) as L. revert L.
  generalize (a mod N.of_nat (dim w - 1 - i))%N. intros r L.
  apply wp_bind. apply wp_swap_row_full; auto; try lia.
  intros m' Hm' B. apply wp_ok. apply HQ with (p := i + 1 + N.to_nat r); auto; lia.
Qed.

Lemma InvT_rge_wp : forall w m s, shapeM w m -> w_seed s <> (2 ^ 31 - 1)%N ->
  wp (InvT_rge w m s) (fun r => wfM w (fst r) /\ invertible (dim w) (mbit w (fst r))).
Proof.
  intros w m s Hm Hs. unfold InvT_rge. rewrite identityM_ok by auto. cbn [bind].
  rewrite reseed_int_ok by auto. cbn [bind].
  pose (I := fun (st : mat * world) => wfM w (fst st) /\ invertible (dim w) (mbit w (fst st))).
  apply wp_for_down with (I := fun _ st => I st).
  - lia.
  - split; [apply wf_id|]. cbn [fst]. exists fid. rewrite mbit_id. apply inverse_of_fid.
  - intros i st _ Hi HI. apply wp_bind.
    apply wp_for_up with (I := fun _ st => I st); [lia|exact HI| |].
    + intros j [m1 s1] _ Hj [H1 H2]. cbn [fst] in *. destruct (Nat.eqb_spec j i) as [->|Hne].
      * apply wp_ok. split; auto.
      * destruct (coin s1) as [[|] s2].
        -- apply wp_bind. apply wp_xor_row_full; auto. intros m' Hm' B. apply wp_ok.
           split; [exact Hm'|]. cbn [fst]. destruct H2 as [C HC].
           assert (HI2 : invertible (dim w) (radd j i (mbit w m1))).
           { apply radd_invertible; auto. exists C. exact HC. }
           destruct HI2 as [D HD]. exists D. rewrite B. exact HD.
        -- apply wp_ok. split; auto.
    + intros [m1 s1] [H1 H2]. cbn [fst] in *. destruct (Nat.ltb_spec i (dim w - 1)) as [L|L].
      * apply rand_exchange_wp; auto. intros m' s' p Hm' Hp1 Hp2 B _. split; [exact Hm'|].
        cbn [fst]. assert (HI2 : invertible (dim w) (rswap i p (mbit w m1)))
          by (apply rswap_invertible; auto; lia).
        destruct HI2 as [D HD]. exists D. rewrite B. exact HD.
      * apply wp_ok. split; auto.
  - intros st H. exact H.
Qed.

(** ** Rejection *)
Lemma randM_wf : forall e w m s, typedM w m -> exists m' s', randM e w m s = Ok (m', s') /\ wfM w m'.
Proof. intros e w m s H. rewrite randM_ok by auto. eexists. eexists. split; [reflexivity|apply wf_rand]. Qed.
Lemma nth_draw_shift : forall e w k t s m1 s1, randM e w t s = Ok (m1, s1) ->
  nth_draw e w (S k) t s = nth_draw e w k m1 s1.
Proof.
  induction k as [|k IH]; intros t s m1 s1 E.
  - cbn [nth_draw]. rewrite E. reflexivity.
  - cbn [nth_draw] in *. rewrite (IH t s m1 s1 E). reflexivity.
Qed.
(** the loop started with draw number 0 = temp *)
Lemma reject_spec : forall e w fuel t0 s0 temp s,
  typedM w t0 -> randM e w t0 s0 = Ok (temp, s) ->
  exists r, reject e w fuel temp s = Ok r /\
  match r with
  | Some (m, s') => exists k, k <= fuel /\ nth_draw e w k t0 s0 = Ok (m, s') /\ wfM w m /\
      invertible (dim w) (mbit w m) /\
      (forall q x y, q < k -> nth_draw e w q t0 s0 = Ok (x, y) -> ~ invertible (dim w) (mbit w x))
  | None => forall q x y, q <= fuel -> nth_draw e w q t0 s0 = Ok (x, y) -> ~ invertible (dim w) (mbit w x)
  end.
Proof.
  intros e w. induction fuel as [|f IH]; intros t0 s0 temp s Ht E.
  - assert (Wt : wfM w temp)
      by (destruct (randM_wf e w t0 s0 Ht) as (m' & s' & E' & W); rewrite E in E'; injection E' as -> ->; auto).
    destruct (wp_exists _ _ _ (isinvert_wp w temp Wt)) as (r & Er & [[-> HI]|[-> HI]]);
      cbn [reject]; rewrite Er; cbn [bind N.eqb negb].
    + eexists. split; [reflexivity|]. exists 0. split; [lia|]. split; [exact E|]. split; [exact Wt|].
      split; [exact HI|]. intros q x y Hq. lia.
    + eexists. split; [reflexivity|]. intros q x y Hq Eq. replace q with 0 in Eq by lia.
      cbn [nth_draw] in Eq. rewrite E in Eq. injection Eq as <- _. exact HI.
  - assert (Wt : wfM w temp)
      by (destruct (randM_wf e w t0 s0 Ht) as (m' & s' & E' & W); rewrite E in E'; injection E' as -> ->; auto).
    destruct (wp_exists _ _ _ (isinvert_wp w temp Wt)) as (r & Er & [[-> HI]|[-> HI]]);
      cbn [reject]; rewrite Er; cbn [bind N.eqb negb].
    + eexists. split; [reflexivity|]. exists 0. split; [lia|]. split; [exact E|]. split; [exact Wt|].
      split; [exact HI|]. intros q x y Hq. lia.
    + destruct (randM_wf e w temp s (wfM_typed _ _ Wt)) as (t1 & s1 & E1 & W1).
      rewrite E1. cbn [bind].
      destruct (IH temp s t1 s1 (wfM_typed _ _ Wt) E1) as (r & Err & Hr).
      exists r. split; [exact Err|].
      assert (Sh : forall q, nth_draw e w (S q) t0 s0 = nth_draw e w q temp s)
        by (intros; apply nth_draw_shift; auto).
      assert (Z : forall x y, nth_draw e w 0 t0 s0 = Ok (x, y) -> ~ invertible (dim w) (mbit w x)).
      { intros x y Ez. cbn [nth_draw] in Ez. rewrite E in Ez. injection Ez as <- _. exact HI. }
      destruct r as [[m s']|].
      * destruct Hr as (k & Hk & Ek & Wm & Im & Hq). exists (S k). split; [lia|].
        rewrite Sh. split; [exact Ek|]. split; [exact Wm|]. split; [exact Im|].
        intros [|q] x y Lq Eq; [apply (Z x y Eq)|]. rewrite Sh in Eq. apply (Hq q x y); auto. lia.
      * intros [|q] x y Lq Eq; [apply (Z x y Eq)|]. rewrite Sh in Eq. apply (Hr q x y); auto. lia.
Qed.
Lemma InvT_wbge_spec : forall e w fuel t0 m s, typedM w t0 -> shapeM w m ->
  exists r, InvT_wbge e w fuel t0 m s = Ok r /\
  match r with
  | Some (m', s') => exists k, k <= fuel /\ nth_draw e w k t0 s = Ok (m', s') /\ wfM w m' /\
      invertible (dim w) (mbit w m') /\
      (forall q x y, q < k -> nth_draw e w q t0 s = Ok (x, y) -> ~ invertible (dim w) (mbit w x))
  | None => forall q x y, q <= fuel -> nth_draw e w q t0 s = Ok (x, y) -> ~ invertible (dim w) (mbit w x)
  end.
Proof.
  intros e w fuel t0 m s Ht Hm. unfold InvT_wbge.
  destruct (randM_wf e w t0 s Ht) as (temp & s1 & E & W). rewrite E. cbn [bind].
  destruct (reject_spec e w fuel t0 s temp s1 Ht E) as (r & Er & Hr). rewrite Er. cbn [bind].
  destruct r as [[m' s']|].
  - destruct Hr as (k & Hk & Ek & Wm & Hr). rewrite copyM_ok by auto using wfM_shape. cbn [bind].
    eexists. split; [reflexivity|]. exists k. auto.
  - eexists. split; [reflexivity|]. exact Hr.
Qed.

(** ** Reverse LU decomposition *)
Definition cell (m : cells) (i k : nat) : option N := nth k (nth i m []) None.
Definition cshape (w : width) (m : cells) : Prop :=
  length m = dim w /\ forall i, i < dim w -> length (nth i m []) = nw w.
(** all elements of row i have a value of wb bits *)
Definition filled (w : width) (m : cells) (i : nat) : Prop :=
  forall k, k < nw w -> exists x, cell m i k = Some x /\ (x < 2 ^ N.of_nat (wb w))%N.
Definition cbit (w : width) (m : cells) (i j : nat) : bool :=
  match cell m i (j / wb w) with
  | Some x => N.testbit x (N.of_nat (wb w - 1 - j mod wb w))
  | None => false
  end.

Lemma length_upd_g : forall A (l : list A) i x, length (upd l i x) = length l.
Proof. induction l; destruct i; simpl; intros; auto. Qed.
Lemma nth_upd_g : forall A (l : list A) i x k d, i < length l ->
  nth k (upd l i x) d = if Nat.eqb k i then x else nth k l d.
Proof.
  induction l as [|a l IH]; simpl; intros i x k d H; [lia|].
  destruct i, k; simpl; auto. apply IH. lia.
Qed.
Lemma wp_aget_g : forall A (l : list A) i d (Q : A -> Prop), i < length l -> Q (nth i l d) -> wp (aget l i) Q.
Proof. intros A l i d Q H HQ. unfold aget. rewrite (nth_error_nth' l d H). exact HQ. Qed.

Lemma wp_cset : forall w m i k x (Q : cells -> Prop), cshape w m -> i < dim w -> k < nw w ->
  (forall m', cshape w m' ->
     (forall r c, cell m' r c = if (Nat.eqb r i && Nat.eqb c k)%bool then x else cell m r c) -> Q m') ->
  wp (cset m i k x) Q.
Proof.
  intros w m i k x Q [HL HR] Hi Hk HQ. unfold cset. apply wp_bind.
  apply wp_aget_g with (d := []); [lia|]. apply wp_bind. unfold aset.
  rewrite (proj2 (Nat.ltb_lt _ _)) by (rewrite HR; auto).
  apply wp_ok. rewrite (proj2 (Nat.ltb_lt _ _)) by lia. apply wp_ok. apply HQ.
  - split; [rewrite length_upd_g; auto|]. intros r Hr. rewrite nth_upd_g by lia.
    destruct (Nat.eqb_spec r i); [rewrite length_upd_g; apply HR; auto|apply HR; auto].
  - intros r c. unfold cell. rewrite nth_upd_g by lia. destruct (Nat.eqb_spec r i) as [->|]; cbn [andb]; auto.
    rewrite nth_upd_g by (rewrite HR; auto). reflexivity.
Qed.

Lemma wp_cxor : forall w flat m i k i' k' x y (Q : cells -> Prop), cshape w m ->
  (flat = true \/ k < nw w) -> i' = i + k / nw w -> k' = k mod nw w -> i' < dim w ->
  cell m i' k' = Some y ->
  (forall m', cshape w m' ->
     (forall r c, cell m' r c = if (Nat.eqb r i' && Nat.eqb c k')%bool then Some (N.lxor y x) else cell m r c) -> Q m') ->
  wp (cxor w flat m i k x) Q.
Proof.
  intros w flat m i k i' k' x y Q Hm Hf Ei Ek Hi Hc HQ. unfold cxor.
  assert (B : (negb flat && Nat.leb (nw w) k)%bool = false).
  { destruct Hf as [->|Hf]; [reflexivity|]. apply andb_false_intro2. apply Nat.leb_gt. lia. }
  rewrite B. cbv zeta. rewrite <- Ei, <- Ek. pose proof Hm as [HL HR].
  assert (Hk : k' < nw w) by (subst k'; apply Nat.mod_upper_bound; pose proof (nw_pos w); lia).
  apply wp_bind. apply wp_aget_g with (d := []); [lia|].
  apply wp_bind. apply wp_aget_g with (d := None); [rewrite HR; auto|].
  fold (cell m i' k'). rewrite Hc. apply wp_cset with (w := w); auto.
Qed.

Lemma wp_coins : forall w flat i k i' k' a b m s x (Q : cells * world -> Prop),
  cshape w m -> (flat = true \/ k < nw w) -> i' = i + k / nw w -> k' = k mod nw w -> i' < dim w ->
  a <= b -> b <= wb w -> cell m i' k' = Some x -> (x < 2 ^ N.of_nat (wb w))%N ->
  (forall m' s' y, cshape w m' -> cell m' i' k' = Some y -> (y < 2 ^ N.of_nat (wb w))%N ->
     (forall c, c < wb w -> (c < a \/ b <= c) ->
        N.testbit y (N.of_nat (wb w - 1 - c)) = N.testbit x (N.of_nat (wb w - 1 - c))) ->
     (forall r c, (r <> i' \/ c <> k') -> cell m' r c = cell m r c) ->
     w_seed s' = w_seed s -> Q (m', s')) ->
  wp (coins w flat i k a b (m, s)) Q.
Proof.
  intros w flat i k i' k' a b m s x Q Hm Hf Ei Ek Hi Hab Hb Hx Bx HQ. unfold coins.
  apply wp_for_up with (I := fun j st => cshape w (fst st) /\ w_seed (snd st) = w_seed s /\
    (forall r c, (r <> i' \/ c <> k') -> cell (fst st) r c = cell m r c) /\
    exists y, cell (fst st) i' k' = Some y /\ (y < 2 ^ N.of_nat (wb w))%N /\
      forall c, c < wb w -> (c < a \/ j <= c) ->
        N.testbit y (N.of_nat (wb w - 1 - c)) = N.testbit x (N.of_nat (wb w - 1 - c))).
  - exact Hab.
  - cbn [fst snd]. split; auto. split; auto. split; auto. exists x. auto.
  - intros j [m1 s1] Hj1 Hj2 (H1 & H2 & H3 & y & Hy & By & Ty). cbn [fst snd] in *.
    assert (S1 : w_seed (snd (coin s1)) = w_seed s) by exact H2.
    destruct (coin s1) as [[|] s2]; cbn [snd] in S1.
    + apply wp_bind. apply wp_idt; [lia|]. apply wp_bind.
      apply wp_cxor with (w := w) (i' := i') (k' := k') (y := y); auto.
      intros m2 Hm2 C2. apply wp_ok. cbn [fst snd]. split; auto. split; auto. split.
      * intros r c Hrc. rewrite C2. destruct (Nat.eqb_spec r i'), (Nat.eqb_spec c k'); cbn [andb]; auto.
        destruct Hrc; contradiction.
      * exists (N.lxor y (2 ^ N.of_nat (wb w - 1 - j))). rewrite C2, !Nat.eqb_refl. cbn [andb].
        split; auto. split.
        -- apply lxor_bound; auto. apply N.pow_lt_mono_r; lia.
        -- intros c Hc Hcj. rewrite N.lxor_spec, Ty by lia. rewrite N.pow2_bits_eqb.
           destruct (N.eqb_spec (N.of_nat (wb w - 1 - j)) (N.of_nat (wb w - 1 - c))); [lia|].
           apply xorb_false_r.
    + apply wp_ok. cbn [fst snd]. split; auto. split; auto. split; auto. exists y. split; auto. split; auto.
      intros c Hc Hcj. apply Ty; auto. lia.
  - intros [m1 s1] (H1 & H2 & H3 & y & Hy & By & Ty). cbn [fst snd] in *.
    apply HQ with (y := y); auto.
Qed.

Lemma wp_zeroes : forall w i a b m (Q : cells -> Prop), cshape w m -> i < dim w -> a <= b -> b <= nw w ->
  (forall m', cshape w m' ->
    (forall r c, cell m' r c = if (Nat.eqb r i && (Nat.leb a c && Nat.ltb c b))%bool then Some 0%N else cell m r c) ->
    Q m') ->
  wp (zeroes i a b m) Q.
Proof.
  intros w i a b m Q Hm Hi Hab Hb HQ. unfold zeroes.
  apply wp_for_up with (I := fun k m' => cshape w m' /\
    (forall r c, cell m' r c = if (Nat.eqb r i && (Nat.leb a c && Nat.ltb c k))%bool then Some 0%N else cell m r c)).
  - exact Hab.
  - split; auto. intros r c. destruct (Nat.leb_spec a c), (Nat.ltb_spec c a); try lia;
      cbn [andb]; rewrite andb_false_r; reflexivity.
  - intros k m1 Hk1 Hk2 [H1 H2]. apply wp_cset with (w := w); auto; try lia.
    intros m2 Hm2 C2. split; auto. intros r c. rewrite C2, H2.
    destruct (Nat.eqb_spec r i); cbn [andb]; auto.
    destruct (Nat.eqb_spec c k), (Nat.leb_spec a c), (Nat.ltb_spec c k), (Nat.ltb_spec c (S k)); try lia; reflexivity.
  - intros m1 [H1 H2]. apply HQ; auto.
Qed.

Lemma wp_coins_in : forall w flat i k a b m s x (Q : cells * world -> Prop),
  cshape w m -> k < nw w -> i < dim w ->
  a <= b -> b <= wb w -> cell m i k = Some x -> (x < 2 ^ N.of_nat (wb w))%N ->
  (forall m' s' y, cshape w m' -> cell m' i k = Some y -> (y < 2 ^ N.of_nat (wb w))%N ->
     (forall c, c < wb w -> (c < a \/ b <= c) ->
        N.testbit y (N.of_nat (wb w - 1 - c)) = N.testbit x (N.of_nat (wb w - 1 - c))) ->
     (forall r c, (r <> i \/ c <> k) -> cell m' r c = cell m r c) ->
     w_seed s' = w_seed s -> Q (m', s')) ->
  wp (coins w flat i k a b (m, s)) Q.
Proof.
  intros w flat i k a b m s x Q Hm Hk Hi Hab Hb Hx Bx HQ.
  apply wp_coins with (i' := i) (k' := k) (x := x); auto.
  - rewrite Nat.div_small by auto. lia.
  - rewrite Nat.mod_small by auto. reflexivity.
Qed.

Lemma d_bound : forall w c, c < wb w -> (2 ^ N.of_nat (wb w - 1 - c) < 2 ^ N.of_nat (wb w))%N.
Proof. intros w c H. apply N.pow_lt_mono_r; lia. Qed.
Lemma d_bit : forall w c c', c < wb w -> c' < wb w ->
  N.testbit (2 ^ N.of_nat (wb w - 1 - c)) (N.of_nat (wb w - 1 - c')) = Nat.eqb c c'.
Proof.
  intros w c c' H H'. rewrite N.pow2_bits_eqb.
  destruct (Nat.eqb_spec c c') as [->|Hne]; [apply N.eqb_refl|]. apply N.eqb_neq. lia.
Qed.

Definition lowtri (w : width) (m : cells) (i : nat) : Prop :=
  filled w m i /\ cbit w m i i = true /\ forall j, i < j -> j < dim w -> cbit w m i j = false.
Definition uptri (w : width) (m : cells) (i : nat) : Prop :=
  filled w m i /\ cbit w m i i = true /\ forall j, j < i -> cbit w m i j = false.
Lemma row_same : forall w m m' i, (forall c, cell m' i c = cell m i c) ->
  (filled w m i -> filled w m' i) /\ forall j, cbit w m' i j = cbit w m i j.
Proof.
  intros w m m' i H. split.
  - intros F k Hk. rewrite H. auto.
  - intros j. unfold cbit. rewrite H. reflexivity.
Qed.
Lemma lowtri_same : forall w m m' i, (forall c, cell m' i c = cell m i c) -> lowtri w m i -> lowtri w m' i.
Proof.
  intros w m m' i H (F & B & Z). destruct (row_same w m m' i H) as [R1 R2].
  split; auto. rewrite R2. split; auto. intros j. rewrite R2. apply Z.
Qed.
Lemma uptri_same : forall w m m' i, (forall c, cell m' i c = cell m i c) -> uptri w m i -> uptri w m' i.
Proof.
  intros w m m' i H (F & B & Z). destruct (row_same w m m' i H) as [R1 R2].
  split; auto. rewrite R2. split; auto. intros j. rewrite R2. apply Z.
Qed.

(** column j of row i lies in block b at offset c *)
Lemma col_split : forall w b i, wb w * b <= i -> i < wb w * (b + 1) ->
  i / wb w = b /\ i mod wb w = i - wb w * b /\ i - wb w * b < wb w.
Proof.
  intros w b i H1 H2. assert (E : i = wb w * b + (i - wb w * b)) by lia.
  assert (L : i - wb w * b < wb w) by lia.
  split; [rewrite E; apply div_block; auto|]. split; auto.
  rewrite E at 1. apply mod_block; auto.
Qed.
Lemma blk_le : forall w i j, i <= j -> i / wb w <= j / wb w.
Proof. intros w i j H. apply Nat.div_le_mono; auto. pose proof (wb_pos w). lia. Qed.

Lemma low_wp : forall w flat m s, cshape w m -> (nw w = 1 \/ forall i, i < dim w -> filled w m i) ->
  w_seed s <> (2 ^ 31 - 1)%N ->
  wp (low w flat m s) (fun st => cshape w (fst st) /\ (forall i, i < dim w -> lowtri w (fst st) i) /\
    w_seed (snd st) = w_seed (reseed s)).
Proof.
  intros w flat m0 s0 Hm0 Hready Hs. unfold low. rewrite reseed_int_ok by auto. cbn [bind].
  apply wp_blocks_up with (body := fun b i st =>
      let (m, s) := st : cells * world in
      d <- aget (idt w) (i - wb w * b) ;;
      m1 <- cset m i b (Some d) ;;
      st1 <- coins w flat i b 0 (i - wb w * b) (m1, s) ;;
      ' (m2, s2) <- for_down b 0 (fun c st => coins w flat i c 0 (wb w) st) st1 ;;
      m3 <- zeroes i (b + 1) (nw w) m2 ;; Ok (m3, s2))
   (I := fun i st => cshape w (fst st) /\ (forall r, r < i -> lowtri w (fst st) r) /\
      (forall r c, i <= r -> cell (fst st) r c = cell m0 r c) /\ w_seed (snd st) = w_seed (reseed s0)).
  - cbn [fst snd]. split; auto. split; [intros; lia|]. auto.
  - intros b i [m s] Hb H1 H2 Hi (HS & HT & HU & HW). cbn [fst snd] in *.
    destruct (col_split w b i H1 H2) as (Ed & Em & Lc).
    apply wp_bind. apply wp_idt; auto.
    apply wp_bind. apply wp_cset with (w := w); auto. intros m1 S1 C1.
    apply wp_bind. apply wp_coins_in with (x := (2 ^ N.of_nat (wb w - 1 - (i - wb w * b)))%N); auto;
      [lia|lia|rewrite C1, !Nat.eqb_refl; reflexivity|apply d_bound; auto|].
    intros m2 s2 y S2 Cy By Ty U2 W2.
    apply wp_bind. apply wp_for_down with (I := fun c st => cshape w (fst st) /\
        w_seed (snd st) = w_seed (reseed s0) /\
        (forall r k, (r <> i \/ b <= k) -> cell (fst st) r k = cell m2 r k) /\
        (forall k, k < b -> exists x, cell (fst st) i k = Some x /\ (x < 2 ^ N.of_nat (wb w))%N)).
    + lia.
    + cbn [fst snd]. split; auto. split; [congruence|]. split; auto. intros k Hk.
      destruct Hready as [N1|F]; [lia|]. rewrite U2 by lia. rewrite C1.
      destruct (Nat.eqb_spec k b); [lia|]. rewrite andb_false_r. rewrite HU by lia.
      apply F; lia.
    + intros c [m3 s3] _ Hc (A1 & A2 & A3 & A4). cbn [fst snd] in *.
      destruct (A4 c Hc) as (x & Ex & Bx).
      apply wp_coins_in with (x := x); auto; try lia.
      intros m4 s4 z S4 Cz Bz _ U4 W4. cbn [fst snd]. split; auto. split; [congruence|]. split.
      * intros r k Hrk. rewrite U4 by (destruct Hrk; [left; auto|right; lia]). auto.
      * intros k Hk. destruct (Nat.eq_dec k c) as [->|Hne]; [eauto|].
        rewrite U4 by auto. auto.
    + intros [m3 s3] (A1 & A2 & A3 & A4). cbn [fst snd] in *. apply wp_bind.
      apply wp_zeroes with (w := w); auto; try lia. intros m4 S4 C4. apply wp_ok. cbn [fst snd].
      assert (RowB : cell m4 i b = Some y).
      { rewrite C4, Nat.eqb_refl. destruct (Nat.leb_spec (b + 1) b); [lia|]. cbn [andb].
        rewrite A3 by auto. exact Cy. }
      assert (RowHi : forall k, b < k -> k < nw w -> cell m4 i k = Some 0%N).
      { intros k K1 K2. rewrite C4, Nat.eqb_refl. destruct (Nat.leb_spec (b + 1) k); [|lia].
        destruct (Nat.ltb_spec k (nw w)); [|lia]. reflexivity. }
      assert (Other : forall r c, r <> i -> cell m4 r c = cell m r c).
      { intros r c Hr. rewrite C4. destruct (Nat.eqb_spec r i); [contradiction|]. cbn [andb].
        rewrite A3 by auto. rewrite U2 by auto. rewrite C1. destruct (Nat.eqb_spec r i); [contradiction|].
        reflexivity. }
      split; auto. split; [|split; [|exact A2]].
      * intros r Hr. destruct (Nat.eq_dec r i) as [->|Hne].
        2:{ apply lowtri_same with (m := m); [intros; apply Other; auto|]. apply HT. lia. }
        split; [|split].
        -- intros k Hk. destruct (lt_eq_lt_dec k b) as [[L|E]|L].
           ++ destruct (A4 k L) as (x & Ex & Bx). exists x. split; auto. rewrite C4, Nat.eqb_refl.
              destruct (Nat.leb_spec (b + 1) k); [lia|]. exact Ex.
           ++ subst k. eauto.
           ++ exists 0%N. split; [apply RowHi; auto|]. apply N.neq_0_lt_0, N.pow_nonzero. discriminate.
        -- unfold cbit. rewrite Ed, RowB, Em, Ty by lia. rewrite d_bit by auto. apply Nat.eqb_refl.
        -- intros j J1 J2. unfold cbit. pose proof (blk_le w i j ltac:(lia)) as Lb. rewrite Ed in Lb.
           destruct (Nat.eq_dec (j / wb w) b) as [Eb|Nb].
           ++ rewrite Eb, RowB. pose proof (mod_lt_wb w j) as Lm.
              pose proof (Nat.div_mod j (wb w) ltac:(pose proof (wb_pos w); lia)) as Dj. rewrite Eb in Dj.
              rewrite Ty by lia. rewrite d_bit by auto. apply Nat.eqb_neq. lia.
           ++ rewrite RowHi by (try apply div_lt_nw; auto; lia). apply N.bits_0.
      * intros r c Hr. rewrite Other by lia. apply HU. lia.
  - intros [m s] (A1 & A2 & A3 & A4). auto.
Qed.

Lemma wp_up_coins : forall w flat b i m s (Q : cells * world -> Prop),
  (flat = true \/ w <> W256) -> cshape w m -> b < nw w -> wb w * b <= i -> i < wb w * (b + 1) -> i < dim w ->
  cell m i b = Some (2 ^ N.of_nat (wb w - 1 - (i - wb w * b)))%N ->
  (nw w = 1 \/ forall r, i < r -> r < dim w -> filled w m r) ->
  (forall m' s' y, cshape w m' -> cell m' i b = Some y -> (y < 2 ^ N.of_nat (wb w))%N ->
     (forall c, c < wb w -> c <= i - wb w * b ->
        N.testbit y (N.of_nat (wb w - 1 - c)) = Nat.eqb (i - wb w * b) c) ->
     (forall r c, r <= i -> (r <> i \/ c <> b) -> cell m' r c = cell m r c) ->
     (nw w = 1 \/ forall r, i < r -> r < dim w -> filled w m' r) ->
     w_seed s' = w_seed s -> Q (m', s')) ->
  wp (coins w flat i (up_target w b) (i - wb w * b + 1) (wb w) (m, s)) Q.
Proof.
  intros w flat b i m s Q Hf Hm Hb H1 H2 Hi Hc Hr HQ.
  assert (Lc : i - wb w * b < wb w) by lia.
  assert (K : up_target w b = b \/ (w = W256 /\ b = 3)).
  { destruct w; auto. unfold up_target. destruct (Nat.eqb_spec b 3); auto. }
  destruct K as [->|[-> ->]].
  - apply wp_coins_in with (x := (2 ^ N.of_nat (wb w - 1 - (i - wb w * b)))%N); auto; [lia|apply d_bound; auto|].
    intros m' s' y S' Cy By Ty U W. apply HQ with (y := y); auto.
    + intros c C1 C2. rewrite Ty by lia. apply d_bit; auto.
    + destruct Hr as [N1|F]; auto. right. intros r R1 R2 k Hk. rewrite U by lia. apply F; auto.
  - assert (flat = true) as -> by (destruct Hf; congruence).
    destruct Hr as [N1|F]; [discriminate N1|].
    change (up_target W256 3) with 4. change (wb W256) with 64 in *.
    destruct (Nat.eq_dec i 255) as [->|Hne].
    + change (255 - 64 * 3 + 1) with 64. change (coins W256 true 255 4 64 64 (m, s)) with (Ok (m, s)).
      apply wp_ok. apply HQ with (y := (2 ^ N.of_nat (64 - 1 - (255 - 64 * 3)))%N); auto.
      * exact (d_bound W256 (255 - 64 * 3) Lc).
      * intros c C1 C2. exact (d_bit W256 (255 - 64 * 3) c Lc C1).
    + change (dim W256) with 256 in *. destruct (F (i + 1) ltac:(lia) ltac:(lia) 0 ltac:(simpl; lia)) as (x & Ex & Bx).
      apply wp_coins with (i' := i + 1) (k' := 0) (x := x); auto.
      { change (dim W256) with 256. lia. }
      { change (wb W256) with 64. lia. }
      intros m' s' y S' Cy By Ty U W. apply HQ with (y := (2 ^ N.of_nat (64 - 1 - (i - 64 * 3)))%N); auto.
      * rewrite U by lia. exact Hc.
      * exact (d_bound W256 (i - 64 * 3) Lc).
      * intros c C1 C2. exact (d_bit W256 (i - 64 * 3) c Lc C1).
      * intros r c R1 _. apply U. lia.
      * right. intros r R1 R2 k Hk. destruct (Nat.eq_dec r (i + 1)) as [->|Hr].
        -- destruct (Nat.eq_dec k 0) as [->|Hk0]; [eauto|]. rewrite U by lia. apply F; auto.
        -- rewrite U by lia. apply F; auto.
Qed.

Lemma up_wp : forall w flat m s, (flat = true \/ w <> W256) -> cshape w m ->
  (nw w = 1 \/ forall i, i < dim w -> filled w m i) ->
  w_seed s <> (2 ^ 31 - 1)%N ->
  wp (up w flat m s) (fun st => cshape w (fst st) /\ (forall i, i < dim w -> uptri w (fst st) i) /\
    w_seed (snd st) = w_seed (reseed s)).
Proof.
  intros w flat m0 s0 Hf Hm0 Hready Hs. unfold up. rewrite reseed_int_ok by auto. cbn [bind].
  apply wp_blocks_up with (body := fun b i st =>
      let (m, s) := st : cells * world in
      m0 <- zeroes i 0 b m ;;
      d <- aget (idt w) (i - wb w * b) ;;
      m1 <- cset m0 i b (Some d) ;;
      st1 <- coins w flat i (up_target w b) (i - wb w * b + 1) (wb w) (m1, s) ;;
      for_up (b + 1) (nw w) (fun c st => coins w flat i c 0 (wb w) st) st1)
   (I := fun i st => cshape w (fst st) /\ (forall r, r < i -> uptri w (fst st) r) /\
      (nw w = 1 \/ forall r, i <= r -> r < dim w -> filled w (fst st) r) /\
      w_seed (snd st) = w_seed (reseed s0)).
  - cbn [fst snd]. split; auto. split; [intros; lia|]. split; auto.
    destruct Hready as [N1|F]; auto.
  - intros b i [m s] Hb H1 H2 Hi (HS & HT & HU & HW). cbn [fst snd] in *.
    destruct (col_split w b i H1 H2) as (Ed & Em & Lc).
    apply wp_bind. apply wp_zeroes with (w := w); auto; try lia. intros m1 S1 C1.
    apply wp_bind. apply wp_idt; auto.
    apply wp_bind. apply wp_cset with (w := w); auto. intros m2 S2 C2.
    assert (O2 : forall r c, r <> i -> cell m2 r c = cell m r c).
    { intros r c Hr. rewrite C2, C1. destruct (Nat.eqb_spec r i); [contradiction|]. reflexivity. }
    apply wp_bind. apply wp_up_coins; auto.
    { rewrite C2, !Nat.eqb_refl. reflexivity. }
    { destruct HU as [N1|F]; auto. right. intros r R1 R2 k Hk. rewrite O2 by lia. apply F; auto; lia. }
    intros m3 s3 y S3 Cy By Ty U3 F3 W3.
    apply wp_for_up with (I := fun c st => cshape w (fst st) /\ w_seed (snd st) = w_seed (reseed s0) /\
        (forall r k, (r <> i \/ k < b + 1) -> cell (fst st) r k = cell m3 r k) /\
        (forall k, b < k -> k < nw w -> exists x, cell (fst st) i k = Some x /\ (x < 2 ^ N.of_nat (wb w))%N)).
    + lia.
    + cbn [fst snd]. split; auto. split; [congruence|]. split; auto. intros k K1 K2.
      destruct HU as [N1|F]; [lia|]. rewrite U3 by lia. rewrite C2.
      destruct (Nat.eqb_spec k b); [lia|]. rewrite andb_false_r, C1.
      destruct (Nat.ltb_spec k b); [lia|]. rewrite !andb_false_r. apply F; auto.
    + intros c [m4 s4] Hc1 Hc2 (A1 & A2 & A3 & A4). cbn [fst snd] in *.
      destruct (A4 c ltac:(lia) Hc2) as (x & Ex & Bx).
      apply wp_coins_in with (x := x); auto; try lia.
      intros m5 s5 z S5 Cz Bz _ U5 W5. cbn [fst snd]. split; auto. split; [congruence|]. split.
      * intros r k Hrk. rewrite U5 by (destruct Hrk; [left; auto|right; lia]). auto.
      * intros k K1 K2. destruct (Nat.eq_dec k c) as [->|Hne]; [eauto|]. rewrite U5 by auto. auto.
    + intros [m4 s4] (A1 & A2 & A3 & A4). cbn [fst snd] in *.
      assert (RowB : cell m4 i b = Some y) by (rewrite A3 by lia; exact Cy).
      assert (RowLo : forall k, k < b -> cell m4 i k = Some 0%N).
      { intros k K. rewrite A3 by lia. rewrite U3 by lia. rewrite C2.
        destruct (Nat.eqb_spec k b); [lia|]. rewrite andb_false_r, C1, Nat.eqb_refl.
        destruct (Nat.ltb_spec k b); [|lia]. reflexivity. }
      split; auto. split; [|split; [|exact A2]].
      * intros r Hr. destruct (Nat.eq_dec r i) as [->|Hne].
        2:{ apply uptri_same with (m := m); [|apply HT; lia]. intros c.
            rewrite A3 by auto. rewrite U3 by lia. apply O2; auto. }
        split; [|split].
        -- intros k Hk. destruct (lt_eq_lt_dec k b) as [[L|E]|L].
           ++ exists 0%N. split; [apply RowLo; auto|]. apply N.neq_0_lt_0, N.pow_nonzero. discriminate.
           ++ subst k. eauto.
           ++ apply A4; auto.
        -- unfold cbit. rewrite Ed, RowB, Em, Ty by lia. apply Nat.eqb_refl.
        -- intros j J. unfold cbit. pose proof (blk_le w j i ltac:(lia)) as Lb. rewrite Ed in Lb.
           destruct (Nat.eq_dec (j / wb w) b) as [Eb|Nb].
           ++ rewrite Eb, RowB. pose proof (mod_lt_wb w j) as Lm.
              pose proof (Nat.div_mod j (wb w) ltac:(pose proof (wb_pos w); lia)) as Dj. rewrite Eb in Dj.
              rewrite Ty by lia. apply Nat.eqb_neq. lia.
           ++ rewrite RowLo by lia. apply N.bits_0.
      * destruct F3 as [N1|F3]; auto. right. intros r R1 R2 k Hk. rewrite A3 by lia. apply F3; auto.
  - intros [m s] (A1 & A2 & A3 & A4). auto.
Qed.

Lemma load_row_ok : forall r l, r = map Some l -> load_row r = Ok l.
Proof. intros r l ->. induction l as [|x l IH]; simpl; auto. rewrite IH. reflexivity. Qed.
Lemma load_ok : forall w m, cshape w m -> (forall i, i < dim w -> filled w m i) ->
  exists m', load m = Ok m' /\ wfM w m' /\ feq (dim w) (mbit w m') (cbit w m).
Proof.
  intros w m [HL HR] HF.
  pose (val := fun c : option N => match c with Some x => x | None => 0%N end).
  pose (m' := map (map val) m).
  assert (Row : forall i, i < dim w -> nth i m [] = map Some (map val (nth i m []))).
  { intros i Hi. rewrite map_map. apply nth_ext with (d := None) (d' := Some (val None)).
    - rewrite map_length. reflexivity.
    - intros k Hk. rewrite HR in Hk by auto. destruct (HF i Hi k Hk) as (x & Ex & _). unfold cell in Ex.
      rewrite (map_nth (fun c => Some (val c)) _ None). rewrite Ex. reflexivity. }
  assert (Nth : forall i, nth i m' [] = map val (nth i m [])).
  { intros i. unfold m'. change [] with (map val []) at 1. apply map_nth. }
  exists m'. split; [|split].
  - assert (H : forall l, (forall r, In r l -> r = map Some (map val r)) -> load l = Ok (map (map val) l)).
    { induction l as [|r l IH]; intros H; auto. cbn [load map].
      rewrite (load_row_ok r (map val r)) by (apply H; left; auto). cbn [bind].
      rewrite IH by (intros; apply H; right; auto). reflexivity. }
    apply H. intros r Hr. destruct (In_nth m r [] Hr) as (i & Hi & <-). apply Row. lia.
  - apply mat_of_iff. split.
    + apply shapeM_mk; [unfold m'; rewrite map_length; auto|]. intros i Hi. rewrite Nth, map_length. auto.
    + intros i k. unfold word. rewrite Nth.
      destruct (Nat.lt_ge_cases i (dim w)) as [Hi|Hi].
      2:{ rewrite (nth_overflow m) by lia. simpl. destruct k; apply N.neq_0_lt_0, N.pow_nonzero; discriminate. }
      destruct (Nat.lt_ge_cases k (nw w)) as [Hk|Hk].
      * destruct (HF i Hi k Hk) as (x & Ex & Bx). unfold cell in Ex.
        rewrite (nth_indep _ 0%N (val None)) by (rewrite map_length, HR; auto).
        rewrite map_nth, Ex. exact Bx.
      * rewrite nth_overflow by (rewrite map_length, HR; auto).
        apply N.neq_0_lt_0, N.pow_nonzero; discriminate.
  - intros i j Hi Hj. unfold mbit, cbit, word. rewrite Nth.
    pose proof (div_lt_nw w j Hj) as Hk. destruct (HF i Hi _ Hk) as (x & Ex & Bx). rewrite Ex.
    unfold cell in Ex. rewrite (nth_indep _ 0%N (val None)) by (rewrite map_length, HR; auto).
    rewrite map_nth, Ex. reflexivity.
Qed.

Lemma lowtri_invertible : forall n A, (forall i, i < n -> A i i = true) ->
  (forall i j, i < j -> j < n -> A i j = false) -> invertible n A.
Proof.
  intros n A H1 H2. apply (invertible_ftr n A). apply (unitri_invertible n _ fid (ftr A)).
  - apply rowtr_id.
  - intros r k Hk Hr. unfold ftr. apply H2; lia.
  - intros k Hk. unfold ftr. auto.
Qed.
Lemma uptri_invertible : forall n A, (forall i, i < n -> A i i = true) ->
  (forall i j, j < i -> i < n -> A i j = false) -> invertible n A.
Proof.
  intros n A H1 H2. apply (unitri_invertible n _ fid A).
  - apply rowtr_id.
  - intros r k Hk Hr. apply H2; lia.
  - intros k Hk. auto.
Qed.

Lemma lowtri_filled : forall w m, (forall i, i < dim w -> lowtri w m i) -> forall i, i < dim w -> filled w m i.
Proof. intros w m H i Hi. apply (H i Hi). Qed.
Lemma uptri_filled : forall w m, (forall i, i < dim w -> uptri w m i) -> forall i, i < dim w -> filled w m i.
Proof. intros w m H i Hi. apply (H i Hi). Qed.

Lemma InvT_rlud_wp : forall e w flat c1 c2 m s, shapeM w m -> cshape w c1 -> cshape w c2 ->
  (flat = true \/ w <> W256) ->
  (nw w = 1 \/ ((forall i, i < dim w -> filled w c1 i) /\ (forall i, i < dim w -> filled w c2 i))) ->
  ((w_seed s < 2 ^ 31 - 3)%N \/ (2 ^ 31 <= w_seed s < 2 ^ 32)%N) ->
  wp (InvT_rlud e w flat c1 c2 m s)
    (fun r => wfM w (fst r) /\ invertible (dim w) (mbit w (fst r))).
Proof.
  intros e w flat c1 c2 m s Hm H1 H2 Hf Hr Hs. unfold InvT_rlud.
  rewrite reseed_int_ok by lia. cbn [bind].
  assert (E1 : w_seed (reseed s) = ((w_seed s + 1) mod 2 ^ 32)%N) by reflexivity.
  assert (E2 : w_seed (reseed (reseed s)) = ((w_seed (reseed s) + 1) mod 2 ^ 32)%N) by reflexivity.
  assert (D : w_seed (reseed s) <> (2 ^ 31 - 1)%N /\ w_seed (reseed (reseed s)) <> (2 ^ 31 - 1)%N).
  { rewrite E2. destruct (N.eq_dec (w_seed s) (2 ^ 32 - 1)) as [E|E].
    - rewrite E1, E. vm_compute. split; discriminate.
    - rewrite E1. rewrite (N.mod_small (w_seed s + 1)) by lia.
      destruct (N.eq_dec (w_seed s) (2 ^ 32 - 2)) as [E'|E'].
      + rewrite E'. vm_compute. split; discriminate.
      + rewrite N.mod_small by lia. lia. }
  destruct D as [D1 D2].
  apply wp_bind. eapply wp_mono; [apply low_wp; auto|].
  { destruct Hr as [N1|[F _]]; auto. }
  intros [d1 s1] (S1 & T1 & W1). cbn [fst snd] in *.
  apply wp_bind. eapply wp_mono; [apply up_wp; auto|].
  { destruct Hr as [N1|[_ F]]; auto. }
  { change (w_seed s1 <> (2 ^ 31 - 1)%N). rewrite W1. exact D2. }
  intros [d2 s2] (S2 & T2 & W2). cbn [fst snd] in *.
  destruct (load_ok w d1 S1 (lowtri_filled w d1 T1)) as (m1 & L1 & V1 & B1).
  destruct (load_ok w d2 S2 (uptri_filled w d2 T2)) as (m2 & L2 & V2 & B2).
  rewrite L1. cbn [bind]. rewrite L2. cbn [bind].
  apply wp_bind. eapply wp_mono; [apply MatMulMat_wp; auto using wfM_typed, shape_fresh_m|].
  intros m3 [V3 B3].
  assert (I3 : invertible (dim w) (mbit w m3)).
  { assert (I1 : invertible (dim w) (mbit w m1)).
    { apply lowtri_invertible; [intros i Hi; rewrite B1 by auto; apply (T1 i Hi)|].
      intros i j Hij Hj. rewrite B1 by lia. apply (T1 i ltac:(lia)); auto. }
    assert (I2 : invertible (dim w) (mbit w m2)).
    { apply uptri_invertible; [intros i Hi; rewrite B2 by auto; apply (T2 i Hi)|].
      intros i j Hij Hj. rewrite B2 by lia. apply (T2 i Hj); auto. }
    destruct (invertible_mul _ _ _ I1 I2) as [D HD]. exists D. rewrite B3. exact HD. }
  pose (I := fun (st : mat * world) => wfM w (fst st) /\ invertible (dim w) (mbit w (fst st))).
  apply wp_bind. apply wp_for_up with (I := fun _ st => I st).
  - lia.
  - split; auto.
  - intros i [m4 s4] _ Hi [A1 A2]. cbn [fst] in *.
    apply rand_exchange_wp; auto. intros m' s' p Hm' Hp1 Hp2 B _. split; [exact Hm'|].
    cbn [fst]. assert (HI2 : invertible (dim w) (rswap i p (mbit w m4)))
      by (apply rswap_invertible; auto; lia).
    destruct HI2 as [D HD]. exists D. rewrite B. exact HD.
  - intros [m4 s4] [A1 A2]. cbn [fst] in *.
    apply wp_bind. rewrite copyM_ok by auto using wfM_shape. apply wp_ok. apply wp_ok. split; auto.
Qed.

(** ** A clock on which the rejection loop never ends *)
Lemma rnd_same : forall s1 s2, w_idx s1 = w_idx s2 -> w_off s1 = w_off s2 -> forall k, rnd s1 k = rnd s2 k.
Proof.
  intros s1 s2 H1 H2 k. unfold rnd.
  assert (H : w_idx (adv s1 k) = w_idx (adv s2 k) /\ w_off (adv s1 k) = w_off (adv s2 k)).
  { induction k as [|k [IH1 IH2]]; auto. rewrite !adv_S. unfold cus_random. cbn. rewrite IH1, IH2. auto. }
  destruct H as [E1 E2]. unfold cus_random. cbn [fst]. rewrite E1, E2. reflexivity.
Qed.
Lemma relem_same : forall e w s1 s2, w_idx s1 = w_idx s2 -> w_off s1 = w_off s2 ->
  forall t, relem e w s1 t = relem e w s2 t.
Proof. intros e w s1 s2 H1 H2 t. unfold relem. rewrite !(rnd_same s1 s2) by auto. reflexivity. Qed.

Definition stuck_clock (c : N) (k : nat) : N := N.lxor (N.of_nat k mod 2 ^ 32) c.
Lemma stuck_reseed : forall c k s, (c < 2 ^ 32)%N -> w_seed s = (N.of_nat k mod 2 ^ 32)%N ->
  w_tick s = k -> w_clk s = stuck_clock c ->
  w_seed (reseed s) = (N.of_nat (S k) mod 2 ^ 32)%N /\ w_tick (reseed s) = S k /\
  w_clk (reseed s) = stuck_clock c /\
  w_idx (reseed s) = w_idx (InitRandom c s) /\ w_off (reseed s) = w_off (InitRandom c s).
Proof.
  intros c k s Hc H1 H2 H3.
  assert (X : N.lxor (w_seed s) (u32 (w_clk s (w_tick s))) = c).
  { rewrite H1, H2, H3. unfold stuck_clock, u32.
    rewrite (N.mod_small (N.lxor _ _)).
    - rewrite <- N.lxor_assoc, N.lxor_nilpotent. apply N.lxor_0_l.
    - apply lxor_bound; auto. apply N.mod_lt. discriminate. }
  unfold reseed, time_null. cbn [w_seed w_tick w_clk w_idx w_off]. rewrite X.
  unfold InitRandom. cbn [w_seed w_tick w_clk w_idx w_off]. rewrite H1, H2, H3.
  repeat split; auto. unfold u32. rewrite N.add_mod_idemp_l by discriminate.
  rewrite Nat2N.inj_succ, N.add_1_r. reflexivity.
Qed.
Lemma adv_clock : forall s k, w_seed (adv s k) = w_seed s /\ w_tick (adv s k) = w_tick s /\
  w_clk (adv s k) = w_clk s.
Proof. intros s k. induction k as [|k (H1 & H2 & H3)]; auto. Qed.
Lemma stuck_draw : forall e w c t0 s0, (c < 2 ^ 32)%N -> typedM w t0 ->
  w_seed s0 = 0%N -> w_tick s0 = 0 -> w_clk s0 = stuck_clock c ->
  forall k, exists s1, nth_draw e w k t0 s0 =
    Ok (mk w (fun i j => relem e w (InitRandom c s0) (i * nw w + j)), s1) /\
    w_seed s1 = (N.of_nat (S k) mod 2 ^ 32)%N /\ w_tick s1 = S k /\ w_clk s1 = stuck_clock c.
Proof.
  intros e w c t0 s0 Hc Ht H1 H2 H3.
  assert (Step : forall k t s, typedM w t -> w_seed s = (N.of_nat k mod 2 ^ 32)%N ->
     w_tick s = k -> w_clk s = stuck_clock c -> exists s1, randM e w t s =
       Ok (mk w (fun i j => relem e w (InitRandom c s0) (i * nw w + j)), s1) /\
       w_seed s1 = (N.of_nat (S k) mod 2 ^ 32)%N /\ w_tick s1 = S k /\ w_clk s1 = stuck_clock c).
  { intros k t s Ht' A1 A2 A3. rewrite randM_ok by auto.
    destruct (stuck_reseed c k s Hc A1 A2 A3) as (B1 & B2 & B3 & B4 & B5).
    eexists. split.
    - f_equal. f_equal. apply mk_ext. intros i j _ _. apply relem_same; [rewrite B4|rewrite B5]; reflexivity.
    - destruct (adv_clock (reseed s) (draws w * (dim w * nw w))) as (C1 & C2 & C3).
      rewrite C1, C2, C3. auto. }
  induction k as [|k (s1 & E & A1 & A2 & A3)].
  - cbn [nth_draw]. apply Step; auto.
  - cbn [nth_draw]. rewrite E. cbn [bind]. apply Step; auto.
    apply wfM_typed. apply wf_rand.
Qed.
Lemma InvT_wbge_stuck : forall e w c t0 m s0, (c < 2 ^ 32)%N -> typedM w t0 -> shapeM w m ->
  w_seed s0 = 0%N -> w_tick s0 = 0 -> w_clk s0 = stuck_clock c ->
  (exists mm ss, randM e w (fresh_m w) s0 = Ok (mm, ss) /\ isinvert w mm = Ok 0%N) ->
  forall fuel, InvT_wbge e w fuel t0 m s0 = Ok None.
Proof.
  intros e w c t0 m s0 Hc Ht Hm H1 H2 H3 (mm & ss & E1 & E2) fuel.
  pose proof (stuck_draw e w c (fresh_m w) s0 Hc (typed_fresh_m w) H1 H2 H3 0) as (s1 & D & _).
  cbn [nth_draw] in D. rewrite E1 in D. injection D as D _.
  assert (NI : ~ invertible (dim w) (mbit w mm)).
  { assert (Wm : wfM w mm) by (rewrite D; apply wf_rand).
    destruct (wp_exists _ _ _ (isinvert_wp w mm Wm)) as (r & Er & [[-> HI]|[-> HI]]); auto.
    rewrite E2 in Er. discriminate Er. }
  destruct (InvT_wbge_spec e w fuel t0 m s0 Ht Hm) as (r & Er & Hr). rewrite Er.
  destruct r as [[m' s']|]; auto. exfalso. destruct Hr as (k & _ & Ek & _ & HI & _).
  destruct (stuck_draw e w c t0 s0 Hc Ht H1 H2 H3 k) as (s2 & D2 & _). rewrite Ek in D2.
  injection D2 as -> _. rewrite <- D in HI. auto.
Qed.

Lemma holding_row : forall w g i, nth i (holding w g) [] = map Some (nth i g []).
Proof. intros w g i. unfold holding. change (@nil (option N)) with (map (@Some N) []). apply map_nth. Qed.
Lemma holding_cell : forall w g i k, wfM w g -> i < dim w -> k < nw w ->
  cell (holding w g) i k = Some (word g i k).
Proof.
  intros w g i k Hg Hi Hk. unfold cell. rewrite holding_row.
  rewrite (nth_indep _ None (Some 0%N)) by (rewrite map_length, (shapeM_row w); auto using wfM_shape).
  apply map_nth.
Qed.
Lemma holding_ok : forall w g, wfM w g ->
  cshape w (holding w g) /\ forall i, i < dim w -> filled w (holding w g) i.
Proof.
  intros w g Hg. split.
  - split; [unfold holding; rewrite map_length; apply Hg|]. intros i Hi.
    rewrite holding_row, map_length. apply shapeM_row; auto using wfM_shape.
  - intros i Hi k Hk. exists (word g i k). split; [apply holding_cell; auto|].
    apply mat_of_iff in Hg. apply Hg.
Qed.
