(** Proofs about matrices and windows: both caches together, layout *)
From Coq Require Import Arith ZArith NArith List Bool Lia Permutation.
From Verif Require Import Base ModelMem SpecMem SpecMemRun Mem1 Mem2.
Import ListNotations.
Open Scope Z_scope.

(** ** Headers are separate *)
Lemma apart_app_intro : forall l l', apart l -> apart l' -> (forall a b, In a l -> In b l' -> separate a b) -> apart (l ++ l').
Proof.
  induction l as [|a l IH]; intros l' A A' H; [exact A'|]. inversion A as [|? ? A1 A2]; subst. cbn [app]. constructor.
  - intros b Hb. apply in_app_or in Hb. destruct Hb; [auto|apply H; auto; left; auto].
  - apply IH; auto. intros x b Hx Hb. apply H; auto. right. auto.
Qed.
Lemma ent_apart : forall a u, apart (sregs (ent a u)).
Proof.
  intros a u. unfold sregs, ent. assert (ND : NoDup (filter (fun i => N.testbit u (N.of_nat i)) (seq 0 64))) by apply NoDup_filter, seq_NoDup.
  rewrite map_map. revert ND. generalize (filter (fun i => N.testbit u (N.of_nat i)) (seq 0 64)). induction l as [|i l IH]; intros ND; [constructor|].
  inversion ND as [|? ? N1 N2]; subst. cbn [map]. constructor; auto. intros b Hb. apply in_map_iff in Hb. destruct Hb as (j & <- & Hj).
  unfold separate. cbn [fst snd]. unfold HSIZE. assert (i <> j) by (intros ->; auto). lia.
Qed.
Lemma ent_inside : forall a u h r, In h (ent a u) -> separate (a, CSIZE) r -> separate (h, HSIZE) r.
Proof.
  intros a u h r H S. apply ent_in in H. destruct H as (i & Hi & _ & ->). unfold separate in *. cbn [fst snd] in *. unfold CSIZE, HSIZE in *. lia.
Qed.
Lemma sregs_app : forall l l', sregs (l ++ l') = sregs l ++ sregs l'.
Proof. intros. apply map_app. Qed.
#[local] Strategy opaque [ent].
Lemma ents_apart : forall cs t, apart (hregs cs ++ t) -> apart (sregs (ents cs) ++ t).
Proof.
  induction cs as [|[a u] cs IH]; intros t H; [exact H|]. change (ents ((a, u) :: cs)) with (ent a u ++ ents cs).
  rewrite sregs_app, <- app_assoc.
  cbn [hregs map fst app] in H. inversion H as [|? ? H1 H2]; subst. apply apart_app_intro.
  - apply ent_apart.
  - apply IH. exact H2.
  - intros x y Hx Hy. apply in_map_iff in Hx. destruct Hx as (h & <- & Hh). apply ent_inside with (1 := Hh).
    apply in_app_or in Hy. destruct Hy as [Hy|Hy]; [|apply H1; apply in_or_app; auto].
    apply in_map_iff in Hy. destruct Hy as (h' & <- & Hh'). apply in_ents in Hh'. destruct Hh' as (b & w & Hb & Hh').
    apply separate_sym. apply ent_inside with (1 := Hh'). apply separate_sym. apply H1. apply in_or_app. left. apply in_map_iff. exists (b, w). auto.
Qed.
Lemma hinv_apart : forall static s0 live rest st, In (s0, CSIZE) static -> hinv static s0 live rest st -> apart (sregs live ++ rest).
Proof.
  intros static s0 live rest st Hs (u0 & cs & sep & H1 & H2 & H3 & H4 & H5 & H6 & H7 & H8 & H9).
  pose proof (apart_perm_head static s0 _ _ Hs H8 H7) as AP.
  change ((s0, CSIZE) :: hregs cs ++ sregs sep ++ rest) with (hregs ((s0, u0) :: cs) ++ sregs sep ++ rest) in AP.
  apply ents_apart in AP. apply apart_perm with (2 := AP). rewrite app_assoc. apply Permutation_app_tail.
  unfold sregs. rewrite <- map_app. apply Permutation_map. exact H9.
Qed.
Lemma ent_nonempty : forall a u, (u < 2 ^ 64)%N -> u <> 0%N -> ent a u <> [].
Proof.
  intros a u Hu NZ E. pose proof (N.bit_log2 u NZ) as B. assert (L : (N.log2 u < 64)%N) by (apply N.log2_lt_pow2; lia).
  assert (K : In (a + HSIZE * Z.of_nat (N.to_nat (N.log2 u))) (ent a u)).
  { apply ent_in. exists (N.to_nat (N.log2 u)). rewrite N2Nat.id. repeat split; auto. lia. }
  rewrite E in K. destruct K.
Qed.
Lemma hinv_empty : forall static s0 rest st, hinv static s0 [] rest st -> Permutation rest (hreg (hheap st)).
Proof.
  intros static s0 rest st (u0 & cs & sep & H1 & H2 & H3 & H4 & H5 & H6 & H7 & H8 & H9).
  apply Permutation_sym, Permutation_nil in H9. apply app_eq_nil in H9. destruct H9 as [E ->].
  destruct cs as [|[a u] cs]; [exact H7|]. exfalso.
  change (ents ((s0, u0) :: (a, u) :: cs)) with (ent s0 u0 ++ ent a u ++ ents cs) in E. apply app_eq_nil in E. destruct E as [_ E].
  apply app_eq_nil in E. destruct E as [E _]. apply (ent_nonempty a u); auto.
  - apply H5 with a. right. left. auto.
  - destruct (H6 a u ltac:(left; auto)) as [|[]]; auto.
Qed.
Lemma hinv_start : forall static s0 h, regions_ok static (hreg h) -> hinv static s0 [] (hreg h) (h_start s0 h).
Proof.
  intros static s0 h H. exists 0%N, [], []. cbn [hblk hcur hheap h_start linked map hd length].
  split; [split; [cbn [cget]; rewrite Z.eqb_refl; reflexivity|exact I]|]. split; [auto|]. split; [unfold CMAX; lia|]. split; [left; auto|].
  split; [intros a u [E|[]]; injection E as _ <-; reflexivity|]. split; [intros a u []|]. split; [apply Permutation_refl|]. split; [auto|].
  constructor.
Qed.
(** at most 15 cache blocks besides the first *)
Lemma hinv_bound : forall static s0 live rest st, hinv static s0 live rest st -> (length (hblk st) <= 16)%nat.
Proof. intros static s0 live rest st (u0 & cs & sep & H1 & H2 & H3 & _). unfold CMAX in H3. lia. Qed.

Lemma h_run_wp : forall static al s0 ops live rest st, alloc_ok static al -> In (s0, CSIZE) static -> hinv static s0 live rest st ->
  wp (h_run al s0 ops live st) (fun o => let '(live', st') := o in hinv static s0 live' rest st').
Proof.
  intros static al s0 ops. induction ops as [|o ops IH]; intros live rest st HA Hs HI; [apply wp_ok; auto|].
  destruct o as [|k]; cbn [h_run].
  - apply wp_bind. apply mzd_t_malloc_wp with (static := static) (live := live) (rest := rest); auto.
  - destruct (nth_error live k) as [p|] eqn:E; [|apply IH; auto].
    apply wp_bind. apply mzd_t_free_wp with (static := static) (live := firstn k live ++ skipn (S k) live) (rest := rest); auto.
    apply hinv_perm with (3 := HI); [apply split_nth; auto|apply Permutation_refl].
Qed.

(** ** Both caches *)
Definition ginv (static : list region) (s0 : Z) (hs : list Z) (bl : list region) (g : gst) : Prop :=
  length (gslots g) = NBLOCKS /\ (gj g < NBLOCKS)%nat /\
  hinv static s0 hs (cached (gslots g) ++ bl) (mkhst (gblk g) (gcur g) (gheap g)).
Lemma ginv_perm : forall static s0 hs hs' bl bl' g, Permutation hs hs' -> Permutation bl bl' -> ginv static s0 hs bl g -> ginv static s0 hs' bl' g.
Proof.
  intros static s0 hs hs' bl bl' g P P' (A & B & C). split; [auto|]. split; [auto|]. apply hinv_perm with (3 := C); auto. apply Permutation_app_head; auto.
Qed.
Lemma ginv_minv : forall static s0 hs bl g, ginv static s0 hs bl g -> exists X,
  minv static (X ++ bl) (mkmmst (gslots g) (gj g) (gheap g)) /\
  forall bl' m, minv static (X ++ bl') m -> ginv static s0 hs bl' (mkgst (mslots m) (mj m) (gblk g) (gcur g) (mheap m)).
Proof.
  intros static s0 hs bl g (A & B & (u0 & cs & sep & H1 & H2 & H3 & H4 & H5 & H6 & H7 & H8 & H9)).
  exists (hregs cs ++ sregs sep). cbn [hblk hcur hheap] in *. split.
  - apply minv_mk; auto. apply perm_trans with (2 := H7). rewrite !app_assoc. apply Permutation_app_tail.
    rewrite <- !app_assoc. apply perm_trans with ((hregs cs ++ sregs sep) ++ cached (gslots g)); [apply Permutation_app_comm|]. rewrite <- app_assoc. apply Permutation_refl.
  - intros bl' m (L & J & P & RO). split; [auto|]. split; [auto|]. exists u0, cs, sep. cbn [hblk hcur hheap gslots gj gblk gcur gheap].
    repeat (split; [assumption|]). split; [|split; assumption].
    apply perm_trans with (2 := P). rewrite !app_assoc. apply Permutation_app_tail.
    rewrite <- !app_assoc. apply perm_trans with ((hregs cs ++ sregs sep) ++ cached (mslots m)); [rewrite <- app_assoc; apply Permutation_refl|apply Permutation_app_comm].
Qed.
Lemma on_mm_malloc_wp : forall static al thr size s0 hs bl g (Q : Z * gst -> Prop), alloc_ok static al -> 0 < size -> ginv static s0 hs bl g ->
  (forall p g', 0 < p -> ginv static s0 hs ((p, size) :: bl) g' -> Q (p, g')) -> wp (on_mm (mmc_malloc al thr size) g) Q.
Proof.
  intros static al thr size s0 hs bl g Q HA Hs HI HQ. destruct (ginv_minv _ _ _ _ _ HI) as (X & M1 & M2).
  unfold on_mm. apply wp_bind. apply mmc_malloc_wp with (static := static) (rest := X ++ bl); auto.
  intros p m Hp HM. apply wp_ok. apply HQ; auto. apply M2. apply minv_perm with (2 := HM). apply Permutation_middle.
Qed.
Lemma on_mm_free_wp : forall static thr p size s0 hs bl g (Q : gst -> Prop), 0 < size -> ginv static s0 hs ((p, size) :: bl) g ->
  (forall g', ginv static s0 hs bl g' -> Q g') -> wp (on_mm_free (mmc_free thr p size) g) Q.
Proof.
  intros static thr p size s0 hs bl g Q Hs HI HQ. destruct (ginv_minv _ _ _ _ _ HI) as (X & M1 & M2).
  unfold on_mm_free. apply wp_bind. apply mmc_free_wp with (static := static) (rest := X ++ bl); auto.
  - apply minv_perm with (2 := M1). apply Permutation_sym, Permutation_middle.
  - intros m HM. apply wp_ok. apply HQ. apply M2. auto.
Qed.
Lemma on_cleanup_wp : forall static s0 hs bl g (Q : gst -> Prop), ginv static s0 hs bl g ->
  (forall g', ginv static s0 hs bl g' -> cached (gslots g') = [] -> Q g') -> wp (on_mm_free mmc_cleanup g) Q.
Proof.
  intros static s0 hs bl g Q HI HQ. destruct (ginv_minv _ _ _ _ _ HI) as (X & M1 & M2).
  unfold on_mm_free. apply wp_bind. apply mmc_cleanup_wp with (1 := M1). intros m HM E. apply wp_ok. apply HQ; auto.
Qed.
Lemma on_h_malloc_wp : forall static al s0 hs bl g (Q : Z * gst -> Prop), In (s0, CSIZE) static -> alloc_ok static al -> ginv static s0 hs bl g ->
  (forall p g', ginv static s0 (p :: hs) bl g' -> Q (p, g')) -> wp (on_h (mzd_t_malloc al s0) g) Q.
Proof.
  intros static al s0 hs bl g Q Hs HA (A & B & C) HQ. unfold on_h. apply wp_bind.
  apply mzd_t_malloc_wp with (static := static) (live := hs) (rest := cached (gslots g) ++ bl); auto.
  intros p st H. apply wp_ok. apply HQ. split; [auto|]. split; [auto|]. destruct st. exact H.
Qed.
Lemma on_h_free_wp : forall static s0 M hs bl g (Q : gst -> Prop), In (s0, CSIZE) static -> ginv static s0 (M :: hs) bl g ->
  (forall g', ginv static s0 hs bl g' -> Q g') -> wp (on_h_free (mzd_t_free s0 M) g) Q.
Proof.
  intros static s0 M hs bl g Q Hs (A & B & C) HQ. unfold on_h_free. apply wp_bind.
  apply mzd_t_free_wp with (static := static) (live := hs) (rest := cached (gslots g) ++ bl); auto.
  intros st H. apply wp_ok. apply HQ. split; [auto|]. split; [auto|]. destruct st. exact H.
Qed.
Lemma ginv_start : forall static s0 h, regions_ok static (hreg h) -> ginv static s0 [] (hreg h) (g_start s0 h).
Proof. intros static s0 h H. split; [reflexivity|]. split; [unfold NBLOCKS; cbn; lia|]. apply hinv_start. auto. Qed.
Lemma ginv_apart : forall static s0 hs bl g, In (s0, CSIZE) static -> ginv static s0 hs bl g -> apart (sregs hs ++ bl).
Proof.
  intros static s0 hs bl g Hs (_ & _ & C). apply hinv_apart in C; auto. apply apart_app in C. destruct C as (C1 & C2 & C3).
  apply apart_app in C2. destruct C2 as (_ & C2 & _). apply apart_app_intro; auto. intros a b Ha Hb. apply C3; auto. apply in_or_app; auto.
Qed.

(** ** What a matrix owns *)
(** what is needed for mzd_free *)
Definition fok (M : mhdr) : Prop :=
  0 <= m_nrows M /\
  (owns_blocks M = true -> exists data, m_blocksv M = data ++ [mkmblk 0 0] /\ Forall (fun b => 0 < ksize b) data).

Lemma free_blocks_wp : forall static thr s0 hs bl data i g (Q : Z * gst -> Prop), Forall (fun b => 0 < ksize b) data ->
  ginv static s0 hs (map breg data ++ bl) g ->
  (forall g', ginv static s0 hs bl g' -> Q (i + Z.of_nat (length data), g')) ->
  wp (free_blocks thr (data ++ [mkmblk 0 0]) i g) Q.
Proof.
  intros static thr s0 hs bl data. induction data as [|b data IH]; intros i g Q HF HI HQ; cbn [app free_blocks].
  - cbn [ksize Z.eqb]. apply wp_ok. cbn [length Z.of_nat] in HQ. rewrite Z.add_0_r in HQ. auto.
  - inversion HF as [|? ? Hb HF']; subst. destruct (Z.eqb_spec (ksize b) 0); [lia|]. apply wp_bind.
    apply on_mm_free_wp with (static := static) (s0 := s0) (hs := hs) (bl := map breg data ++ bl); auto.
    intros g' HI'. apply IH; auto. intros g2 HI2. replace (i + 1 + Z.of_nat (length data)) with (i + Z.of_nat (length (b :: data))) by (cbn [length]; lia). auto.
Qed.
Lemma mzd_free_wp : forall static thr s0 M hs bl g (Q : gst -> Prop), In (s0, CSIZE) static -> fok M ->
  ginv static s0 (m_addr M :: hs) (owned M ++ bl) g ->
  (forall g', ginv static s0 hs bl g' -> Q g') -> wp (mzd_free thr s0 M g) Q.
Proof.
  intros static thr s0 M hs bl g Q Hs [F1 F2] HI HQ. unfold mzd_free. apply wp_bind. unfold owned in HI. rewrite <- app_assoc in HI.
  set (B := if owns_blocks M then (m_blocks M, 24 * Z.of_nat (length (m_blocksv M))) :: map breg (removelast (m_blocksv M)) else []) in *.
  assert (NEXT : forall g, ginv static s0 (m_addr M :: hs) (B ++ bl) g ->
    wp (g0 <- (if owns_blocks M then ' (i, g1) <- free_blocks thr (m_blocksv M) 0 g ;; on_mm_free (mmc_free thr (m_blocks M) ((i + 1) * BSIZE)) g1 else Ok g) ;;
        on_h_free (mzd_t_free s0 (m_addr M)) g0) Q).
  { clear g HI. intros g HI. apply wp_bind.
    assert (LAST : forall g, ginv static s0 (m_addr M :: hs) bl g -> wp (on_h_free (mzd_t_free s0 (m_addr M)) g) Q).
    { intros g' HI'. apply on_h_free_wp with (static := static) (hs := hs) (bl := bl); auto. }
    unfold B in HI. destruct (owns_blocks M) eqn:EO.
    - destruct (F2 eq_refl) as (data & ED & HF). rewrite ED in *. rewrite removelast_last in HI. cbn [app] in HI. apply wp_bind.
      apply free_blocks_wp with (static := static) (s0 := s0) (hs := m_addr M :: hs) (bl := (m_blocks M, 24 * Z.of_nat (length (data ++ [mkmblk 0 0]))) :: bl); auto.
      + apply ginv_perm with (3 := HI); [apply Permutation_refl|]. apply Permutation_middle.
      + intros g' HI'. apply on_mm_free_wp with (static := static) (s0 := s0) (hs := m_addr M :: hs) (bl := bl); [unfold BSIZE; lia| |auto].
        replace ((0 + Z.of_nat (length data) + 1) * BSIZE) with (24 * Z.of_nat (length (data ++ [mkmblk 0 0]))); [exact HI'|].
        rewrite app_length. cbn [length]. unfold BSIZE. lia.
    - apply wp_ok. auto. }
  destruct (Z.eqb_spec (m_rows M) 0) as [E|NE].
  - apply wp_ok. apply NEXT. exact HI.
  - apply on_mm_free_wp with (static := static) (s0 := s0) (hs := m_addr M :: hs) (bl := B ++ bl); [unfold WSIZE; lia| |auto].
    replace ((m_nrows M + 1) * WSIZE) with (8 * (m_nrows M + 1)) by (unfold WSIZE; lia). exact HI.
Qed.
