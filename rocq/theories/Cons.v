(** Loops over the elements of a matrix, constructors, copies, comparison. *)
From Coq Require Import Arith NArith List Bool Lia.
From Verif Require Import Base Tables Model Spec LinAlg Mem.
Import ListNotations.

(** ** Loops over blocks of rows or columns *)

Lemma wp_blocks_up : forall w St (I : nat -> St -> Prop) body (Q : St -> Prop) s,
  I 0 s ->
  (forall b i x, b < nw w -> wb w * b <= i -> i < wb w * (b + 1) -> i < dim w ->
     I i x -> wp (body b i x) (I (S i))) ->
  (forall x, I (dim w) x -> Q x) ->
  wp (for_up 0 (nw w) (fun b x => for_up (wb w * b) (wb w * (b + 1)) (body b) x) s) Q.
Proof.
  intros w St I body Q s H0 Hs HQ.
  apply wp_for_up with (I := fun b x => I (wb w * b) x).
  - lia.
  - rewrite Nat.mul_0_r. exact H0.
  - intros b x _ Hb HI. apply wp_for_up with (I := I); auto; try lia.
    + intros i y H1 H2. apply Hs; auto. rewrite dim_eq. nia.
    + intros y Hy. replace (wb w * S b) with (wb w * (b + 1)) by lia. exact Hy.
  - intros x Hx. apply HQ. rewrite dim_eq. exact Hx.
Qed.

Lemma wp_blocks_down : forall w St (I : nat -> St -> Prop) body (Q : St -> Prop) s,
  I (dim w) s ->
  (forall b i x, b < nw w -> wb w * b <= i -> i < wb w * (b + 1) -> i < dim w ->
     I (S i) x -> wp (body b i x) (I i)) ->
  (forall x, I 0 x -> Q x) ->
  wp (for_down (nw w) 0 (fun b x => for_down (wb w * (b + 1)) (wb w * b) (body b) x) s) Q.
Proof.
  intros w St I body Q s H0 Hs HQ.
  apply wp_for_down with (I := fun b x => I (wb w * b) x).
  - lia.
  - rewrite <- dim_eq. exact H0.
  - intros b x _ Hb HI. apply wp_for_down with (I := I); auto; try lia.
    + replace (wb w * (b + 1)) with (wb w * S b) by lia. exact HI.
    + intros i y H1 H2. apply Hs; auto. rewrite dim_eq. nia.
  - intros x Hx. apply HQ. rewrite Nat.mul_0_r in Hx. exact Hx.
Qed.

Lemma wp_blocks_ret : forall w St R (I : nat -> St -> Prop) body (Q : St + R -> Prop) s,
  I 0 s ->
  (forall b i x, b < nw w -> wb w * b <= i -> i < wb w * (b + 1) -> i < dim w ->
     I i x ->
     wp (body b i x) (fun y => match y with inl x' => I (S i) x' | inr r => Q (inr r) end)) ->
  (forall x, I (dim w) x -> Q (inl x)) ->
  wp (for_ret 0 (nw w) (fun b x => for_ret (wb w * b) (wb w * (b + 1)) (body b) x) s) Q.
Proof.
  intros w St R I body Q s H0 Hs HQ.
  apply wp_for_ret with (I := fun b x => I (wb w * b) x).
  - lia.
  - rewrite Nat.mul_0_r. exact H0.
  - intros b x _ Hb HI. apply wp_for_ret with (I := I); auto; try lia.
    + intros i y H1 H2. apply Hs; auto. rewrite dim_eq. nia.
    + intros y Hy. replace (wb w * S b) with (wb w * (b + 1)) by lia. exact Hy.
  - intros x Hx. apply HQ. rewrite dim_eq. exact Hx.
Qed.

(** ** The matrix with given elements *)

Definition mk (w : width) (f : nat -> nat -> N) : mat :=
  map (fun i => map (f i) (seq 0 (nw w))) (seq 0 (dim w)).
Definition mkv (w : width) (f : nat -> N) : vec := map f (seq 0 (nw w)).

Lemma nth_map_seq : forall A (f : nat -> A) n i d, i < n -> nth i (map f (seq 0 n)) d = f i.
Proof.
  intros A f n i d Hi. rewrite (nth_indep _ d (f 0)) by (rewrite map_length, seq_length; auto).
  rewrite map_nth, seq_nth by auto. reflexivity.
Qed.

Lemma shape_mk : forall w f, shapeM w (mk w f).
Proof.
  intros w f. unfold mk. apply shapeM_mk.
  - rewrite map_length, seq_length. reflexivity.
  - intros i Hi. rewrite nth_map_seq by auto. rewrite map_length, seq_length. reflexivity.
Qed.
Lemma shape_mkv : forall w f, shapeV w (mkv w f).
Proof. intros w f. unfold shapeV, mkv. rewrite map_length, seq_length. reflexivity. Qed.

Lemma word_mk : forall w f i k, i < dim w -> k < nw w -> word (mk w f) i k = f i k.
Proof. intros w f i k Hi Hk. unfold word, mk. rewrite !nth_map_seq by auto. reflexivity. Qed.
Lemma nth_mkv : forall w f k, k < nw w -> nth k (mkv w f) 0%N = f k.
Proof. intros w f k Hk. unfold mkv. apply nth_map_seq; auto. Qed.

Lemma word_out : forall w m i k, shapeM w m -> (dim w <= i \/ nw w <= k) -> word m i k = 0%N.
Proof.
  intros w m i k Hm H. unfold word.
  destruct (Nat.lt_ge_cases i (dim w)) as [Hi|Hi].
  - rewrite nth_overflow; auto. rewrite (shapeM_row w); auto. lia.
  - rewrite (nth_overflow m) by (destruct Hm; lia). apply nth_overflow. simpl; lia.
Qed.

Lemma mk_bound : forall w f bits,
  (forall i k, i < dim w -> k < nw w -> (f i k < 2 ^ N.of_nat bits)%N) -> mat_of w bits (mk w f).
Proof.
  intros w f bits H. apply mat_of_iff. split; [apply shape_mk|]. intros i k.
  destruct (Nat.lt_ge_cases i (dim w)) as [Hi|Hi];
    [destruct (Nat.lt_ge_cases k (nw w)) as [Hk|Hk]|].
  - rewrite word_mk; auto.
  - rewrite (word_out w); auto using shape_mk. apply N.neq_0_lt_0, N.pow_nonzero; lia.
  - rewrite (word_out w); auto using shape_mk. apply N.neq_0_lt_0, N.pow_nonzero; lia.
Qed.
Lemma mkv_bound : forall w f bits,
  (forall k, k < nw w -> (f k < 2 ^ N.of_nat bits)%N) -> vec_of w bits (mkv w f).
Proof.
  intros w f bits H. apply vec_of_iff. split; [apply shape_mkv|]. intros k.
  destruct (Nat.lt_ge_cases k (nw w)) as [Hk|Hk].
  - rewrite nth_mkv; auto.
  - rewrite nth_overflow by (rewrite shape_mkv; lia). apply N.neq_0_lt_0, N.pow_nonzero; lia.
Qed.

Lemma mk_word : forall w m, shapeM w m -> mk w (word m) = m.
Proof.
  intros w m Hm. apply word_ext with (w := w); auto using shape_mk.
  intros; apply word_mk; auto.
Qed.
Lemma mk_ext : forall w f g, (forall i k, i < dim w -> k < nw w -> f i k = g i k) -> mk w f = mk w g.
Proof.
  intros w f g H. apply word_ext with (w := w); auto using shape_mk.
  intros; rewrite !word_mk; auto.
Qed.
Lemma mkv_nth : forall w v, shapeV w v -> mkv w (fun k => nth k v 0%N) = v.
Proof.
  intros w v Hv. apply list_ext with (d := 0%N).
  - rewrite shape_mkv. symmetry. exact Hv.
  - intros k Hk. rewrite shape_mkv in Hk. apply nth_mkv; auto.
Qed.

Lemma wp_eq : forall A (c : res A) x, wp c (fun r => r = x) -> c = Ok x.
Proof. intros A [a|] x H; simpl in H; [congruence|contradiction]. Qed.

(** Every element (i,k) of the buffer is set in turn, to a value which may depend
    on elements not yet written. *)
Lemma wp_fill : forall w (f : nat -> nat -> N) (body : nat -> nat -> mat -> res mat) m,
  shapeM w m ->
  (forall i k m', i < dim w -> k < nw w -> shapeM w m' ->
     (forall i' k', (i < i' \/ (i = i' /\ k <= k')) -> word m' i' k' = word m i' k') ->
     wp (body i k m') (fun m2 => shapeM w m2 /\
        forall i' k', word m2 i' k' =
          if (Nat.eqb i' i && Nat.eqb k' k)%bool then f i k else word m' i' k')) ->
  for_up 0 (dim w) (fun i m => for_up 0 (nw w) (fun k m => body i k m) m) m = Ok (mk w f).
Proof.
  intros w f body m Hm Hb. apply wp_eq.
  apply wp_for_up with (I := fun i m' => shapeM w m' /\
    (forall i' k', i' < i -> k' < nw w -> word m' i' k' = f i' k') /\
    (forall i' k', i <= i' -> word m' i' k' = word m i' k')).
  - lia.
  - repeat split; auto; try apply Hm. intros; lia.
  - intros i m1 _ Hi (H1 & H2 & H3).
    apply wp_for_up with (I := fun k m' => shapeM w m' /\
      (forall i' k', (i' < i \/ (i' = i /\ k' < k)) -> k' < nw w -> word m' i' k' = f i' k') /\
      (forall i' k', (i < i' \/ (i = i' /\ k <= k')) -> word m' i' k' = word m i' k')).
    + lia.
    + split; [exact H1|]. split.
      * intros i' k' [H|[_ H]] Hk; [apply H2; auto|lia].
      * intros i' k' H. apply H3. lia.
    + intros k m2 _ Hk (G1 & G2 & G3).
      eapply wp_mono; [apply (Hb i k m2); auto|].
      intros m3 [E1 E2]. split; [exact E1|]. split.
      * intros i' k' H Hk'. rewrite E2.
        destruct (Nat.eqb_spec i' i) as [->|]; simpl; [|apply G2; auto; lia].
        destruct (Nat.eqb_spec k' k) as [->|]; [reflexivity|apply G2; auto; lia].
      * intros i' k' H. rewrite E2.
        destruct (Nat.eqb_spec i' i) as [->|]; simpl; [|apply G3; lia].
        destruct (Nat.eqb_spec k' k) as [->|]; [lia|apply G3; lia].
    + intros m2 (G1 & G2 & G3). split; [exact G1|]. split.
      * intros i' k' H Hk. apply G2; auto. lia.
      * intros i' k' H. apply G3. lia.
  - intros m' (H1 & H2 & H3). apply word_ext with (w := w); auto using shape_mk.
    intros i k Hi Hk. rewrite word_mk by auto. apply H2; auto.
Qed.

Lemma wp_fillv : forall w (f : nat -> N) (body : nat -> vec -> res vec) v,
  shapeV w v ->
  (forall k v', k < nw w -> shapeV w v' ->
     (forall k', k <= k' -> nth k' v' 0%N = nth k' v 0%N) ->
     wp (body k v') (fun v2 => shapeV w v2 /\
        forall k', nth k' v2 0%N = if Nat.eqb k' k then f k else nth k' v' 0%N)) ->
  for_up 0 (nw w) body v = Ok (mkv w f).
Proof.
  intros w f body v Hv Hb. apply wp_eq.
  apply wp_for_up with (I := fun k v' => shapeV w v' /\
    (forall k', k' < k -> nth k' v' 0%N = f k') /\
    (forall k', k <= k' -> nth k' v' 0%N = nth k' v 0%N)).
  - lia.
  - repeat split; auto. intros; lia.
  - intros k v1 _ Hk (H1 & H2 & H3).
    eapply wp_mono; [apply (Hb k v1); auto|].
    intros v2 [E1 E2]. split; [exact E1|]. split.
    + intros k' H. rewrite E2. destruct (Nat.eqb_spec k' k) as [->|]; auto. apply H2; lia.
    + intros k' H. rewrite E2. destruct (Nat.eqb_spec k' k) as [->|]; [lia|]. apply H3; lia.
  - intros v' (H1 & H2 & H3). apply list_ext with (d := 0%N).
    + rewrite shape_mkv. exact H1.
    + intros k Hk. rewrite H1 in Hk. rewrite nth_mkv by auto. apply H2; auto.
Qed.

Lemma wp_vset : forall w v k x (Q : vec -> Prop), shapeV w v -> k < nw w ->
  (forall v', shapeV w v' -> (forall k', nth k' v' 0%N = if Nat.eqb k' k then x else nth k' v 0%N) -> Q v') ->
  wp (aset v k x) Q.
Proof.
  intros w v k x Q Hv Hk HQ. unfold shapeV in Hv. apply wp_aset; [lia|]. apply HQ.
  - unfold shapeV. rewrite length_upd. exact Hv.
  - intros k'. apply nth_upd. lia.
Qed.
Lemma wp_vget : forall w v k (Q : N -> Prop), shapeV w v -> k < nw w -> Q (nth k v 0%N) -> wp (aget v k) Q.
Proof. intros w v k Q Hv Hk HQ. apply wp_aget with (d := 0%N); auto. unfold shapeV in Hv. lia. Qed.

(** ** init *)

Lemma initM_ok : forall w m, shapeM w m -> initM w m = Ok (mk w (fun _ _ => 0%N)).
Proof.
  intros w m Hm. unfold initM.
  apply (wp_fill w (fun _ _ => 0%N) (fun i k m => mset m i k 0%N)); auto.
  intros i k m' Hi Hk Hm' _. apply wp_mset with (w := w); auto.
Qed.
Lemma initV_ok : forall w v, shapeV w v -> initV w v = Ok (mkv w (fun _ => 0%N)).
Proof.
  intros w v Hv. unfold initV.
  apply (wp_fillv w (fun _ => 0%N) (fun k v => aset v k 0%N)); auto.
  intros k v' Hk Hv' _. apply wp_vset with (w := w); auto.
Qed.

(** ** copy *)
Lemma copyM_ok : forall w m1 m2, shapeM w m1 -> shapeM w m2 -> copyM w m1 m2 = Ok m1.
Proof.
  intros w m1 m2 H1 H2. unfold copyM.
  rewrite (wp_fill w (word m1) (fun i k m => x <- mget m1 i k ;; mset m i k x)); auto.
  - rewrite mk_word; auto.
  - intros i k m' Hi Hk Hm' _. apply wp_bind. apply wp_mget with (w := w); auto.
    apply wp_mset with (w := w); auto.
Qed.

(** ** identity *)
Definition id_word (w : width) (i k : nat) : N :=
  if Nat.eqb k (i / wb w) then (2 ^ N.of_nat (wb w - 1 - i mod wb w))%N else 0%N.

Lemma identityM_ok : forall w m, shapeM w m -> identityM w m = Ok (mk w (id_word w)).
Proof.
  intros w m Hm. unfold identityM. apply wp_eq.
  apply wp_blocks_up with (I := fun i m' => shapeM w m' /\
     forall i' k', i' < i -> k' < nw w -> word m' i' k' = id_word w i' k').
  - split; auto. intros; lia.
  - intros b i m1 Hb Hi1 Hi2 Hin [H1 H2].
    apply wp_for_up with (I := fun k m' => shapeM w m' /\
      (forall i' k', (i' < i \/ (i' = i /\ k' < k)) -> k' < nw w -> word m' i' k' = id_word w i' k')).
    + lia.
    + split; auto. intros i' k' [H|[_ H]] Hk; [auto|lia].
    + intros k m2 _ Hk (G1 & G2).
      assert (Ei : i / wb w = b).
      { replace i with (wb w * b + (i - wb w * b)) by lia. apply div_block. lia. }
      assert (Em : i mod wb w = i - wb w * b).
      { replace i with (wb w * b + (i - wb w * b)) at 1 by lia. apply mod_block. lia. }
      assert (HS : forall x, x = id_word w i k ->
        wp (mset m2 i k x) (fun m' => shapeM w m' /\
          (forall i' k', (i' < i \/ (i' = i /\ k' < S k)) -> k' < nw w -> word m' i' k' = id_word w i' k'))).
      { intros x ->. apply wp_mset with (w := w); auto. intros m' E1 E2. split; auto.
        intros i' k' H Hk'. rewrite E2.
        destruct (Nat.eqb_spec i' i) as [->|]; simpl; [|apply G2; auto; lia].
        destruct (Nat.eqb_spec k' k) as [->|]; [reflexivity|apply G2; auto; lia]. }
      destruct (Nat.eqb_spec k b) as [->|Hne].
      * apply wp_bind. apply wp_idt; [lia|]. apply HS. unfold id_word.
        rewrite Ei, Nat.eqb_refl, Em. reflexivity.
      * apply HS. unfold id_word. rewrite Ei. destruct (Nat.eqb_spec k b); [lia|reflexivity].
    + intros m2 (G1 & G2). split; auto. intros i' k' H Hk. apply G2; auto. lia.
  - intros m' [H1 H2]. apply word_ext with (w := w); auto using shape_mk.
    intros i k Hi Hk. rewrite word_mk by auto. apply H2; auto.
Qed.

Lemma id_word_bound : forall w i k, (id_word w i k < 2 ^ N.of_nat (wb w))%N.
Proof.
  intros w i k. unfold id_word. destruct (Nat.eqb k (i / wb w)).
  - apply pow2_bound. pose proof (wb_pos w). lia.
  - apply N.neq_0_lt_0, N.pow_nonzero; lia.
Qed.
Lemma wf_id : forall w, wfM w (mk w (id_word w)).
Proof. intros w. apply mk_bound. intros; apply id_word_bound. Qed.
Lemma mbit_id : forall w, feq (dim w) (mbit w (mk w (id_word w))) fid.
Proof.
  intros w i j Hi Hj. unfold mbit. rewrite word_mk by (auto using div_lt_nw).
  unfold id_word, fid. pose proof (wb_pos w) as P.
  pose proof (mod_lt_wb w i) as Mi. pose proof (mod_lt_wb w j) as Mj.
  destruct (Nat.eqb_spec (j / wb w) (i / wb w)) as [E|E].
  - rewrite N.pow2_bits_eqb. destruct (Nat.eqb_spec i j) as [->|Hne].
    + apply N.eqb_refl.
    + apply N.eqb_neq. intros H. apply Hne.
      rewrite (Nat.div_mod i (wb w)), (Nat.div_mod j (wb w)) by lia. rewrite E.
      assert (i mod wb w = j mod wb w) by lia. lia.
  - rewrite N.bits_0. destruct (Nat.eqb_spec i j) as [->|]; [contradiction|reflexivity].
Qed.

Lemma wf_zero : forall w, wfM w (mk w (fun _ _ => 0%N)).
Proof. intros w. apply mk_bound. intros. apply N.neq_0_lt_0, N.pow_nonzero; lia. Qed.
Lemma mbit_zero : forall w, feq (dim w) (mbit w (mk w (fun _ _ => 0%N))) fzero.
Proof.
  intros w i j Hi Hj. unfold mbit. rewrite word_mk by (auto using div_lt_nw). apply N.bits_0.
Qed.
Lemma wf_zerov : forall w, wfV w (mkv w (fun _ => 0%N)).
Proof. intros w. apply mkv_bound. intros. apply N.neq_0_lt_0, N.pow_nonzero; lia. Qed.
Lemma vbit_zero : forall w, veq (dim w) (vbit w (mkv w (fun _ => 0%N))) (fun _ => false).
Proof.
  intros w j Hj. unfold vbit. rewrite nth_mkv by (auto using div_lt_nw). apply N.bits_0.
Qed.

Lemma shape_fresh_m : forall w, shapeM w (fresh_m w).
Proof.
  intros w. unfold fresh_m. split; [apply repeat_length|].
  apply Forall_forall. intros r Hr. apply repeat_spec in Hr. subst. apply repeat_length.
Qed.
Lemma shape_fresh_v : forall w, shapeV w (fresh_v w).
Proof. intros w. apply repeat_length. Qed.

(** ** comparison *)
Lemma isequalM_ok : forall w m1 m2, shapeM w m1 -> shapeM w m2 ->
  wp (isequalM w m1 m2) (fun r => (r = 1%N /\ m1 = m2) \/ (r = 0%N /\ m1 <> m2)).
Proof.
  intros w m1 m2 H1 H2. unfold isequalM. apply wp_bind.
  apply wp_for_ret with (I := fun i (_ : unit) =>
    forall i' k', i' < i -> k' < nw w -> word m1 i' k' = word m2 i' k').
  - lia.
  - intros; lia.
  - intros i [] _ Hi HI.
    apply wp_for_ret with (I := fun k (_ : unit) =>
      forall i' k', (i' < i \/ (i' = i /\ k' < k)) -> k' < nw w -> word m1 i' k' = word m2 i' k').
    + lia.
    + intros i' k' [H|[_ H]] Hk; [auto|lia].
    + intros k [] _ Hk HK.
      apply wp_bind. apply wp_mget with (w := w); auto.
      apply wp_bind. apply wp_mget with (w := w); auto. apply wp_ok.
      destruct (N.eqb_spec (word m1 i k) (word m2 i k)) as [E|E].
      * intros i' k' H Hk'. destruct (Nat.eq_dec i' i) as [->|]; [|apply HK; auto; lia].
        destruct (Nat.eq_dec k' k) as [->|]; [exact E|apply HK; auto; lia].
      * cbv beta iota. right. split; auto. intros ->. apply E; reflexivity.
    + intros [] HK i' k' H Hk. apply HK; auto. lia.
  - intros [] HI. left. split; auto. apply word_ext with (w := w); auto.
Qed.

Lemma isequalV_ok : forall w v1 v2, w <> W256 -> shapeV w v1 -> shapeV w v2 ->
  wp (isequalV w v1 v2) (fun r => (r = 1%N /\ v1 = v2) \/ (r = 0%N /\ v1 <> v2)).
Proof.
  intros w v1 v2 Hw H1 H2. unfold shapeV in *.
  destruct w; try congruence; simpl in H1, H2;
    repeat (destruct v1 as [|? v1]; simpl in H1; try discriminate);
    repeat (destruct v2 as [|? v2]; simpl in H2; try discriminate);
    unfold isequalV; cbn -[N.eqb];
    repeat match goal with |- context [N.eqb ?a ?b] => destruct (N.eqb_spec a b) end;
    cbn; subst; first [left; split; reflexivity | right; split; [reflexivity|congruence]].
Qed.
